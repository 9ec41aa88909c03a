(** Rounding of the executable IEEE 754 for any operand: results are in canonical form, magnitudes are kept; and
    the two loops of [Real::new]. *)
From Coq Require Import SpecFloat QArith Qpower Qabs Lqa.
From Verif Require Import Base PArith PHeader MReal PFloat SReal PReal.
Local Open Scope Z_scope.

Lemma times_comm {A} n (f : A -> A) x : times n f (f x) = f (times n f x).
Proof. induction n as [|n IH]; cbn; [reflexivity|now rewrite IH]. Qed.
Lemma shr_1_m x : 0 <= shr_m x -> shr_m (shr_1 x) = shr_m x / 2.
Proof. destruct x as [m r s]. intros Hm. rewrite shr_1_half by exact Hm. reflexivity. Qed.
Lemma shr_times_m n x : 0 <= shr_m x -> shr_m (times n shr_1 x) = shr_m x / 2 ^ Z.of_nat n.
Proof.
  intros Hx. induction n as [|n IH]; cbn [times]; [now rewrite Z.div_1_r|].
  assert (0 < 2 ^ Z.of_nat n) by (apply Z.pow_pos_nonneg; lia).
  rewrite shr_1_m by (rewrite IH; apply Z.div_pos; lia). rewrite IH, Z.div_div by lia. f_equal.
  rewrite Nat2Z.inj_succ, Z.pow_succ_r by lia. lia.
Qed.
Lemma shr_record_m m l : shr_m (shr_record_of_loc m l) = m.
Proof. destruct l as [|[]]; reflexivity. Qed.
Lemma shr_fexp_any m e l x e' : 0 <= m -> shr_fexp 53 1024 m e l = (x, e') ->
  let n := Z.max 0 (fexp 53 1024 (Zdigits2 m + e) - e) in shr_m x = m / 2 ^ n /\ e' = e + n.
Proof.
  intros Hm H n. unfold shr_fexp, shr in H. destruct (fexp 53 1024 (Zdigits2 m + e) - e) as [|p|p] eqn:E; injection H as <- <-; subst n; cbn [Z.max].
  - rewrite shr_record_m. cbn. rewrite Z.div_1_r. lia.
  - rewrite iter_pos_nat, shr_times_m by (rewrite shr_record_m; exact Hm). rewrite shr_record_m, positive_nat_Z. cbn; lia.
  - rewrite shr_record_m. cbn. rewrite Z.div_1_r. lia.
Qed.
Lemma round_even_range m l : m <= round_nearest_even m l <= m + 1.
Proof. destruct l as [|[]]; cbn; try lia. destruct (Z.even m); lia. Qed.

(** Four times the place within the last digit, cut to a whole number; the record of a location is what two shifts leave. *)
Definition quarter (l : location) : Z :=
  match l with loc_Exact => 0 | loc_Inexact Lt => 1 | loc_Inexact Eq => 2 | loc_Inexact Gt => 3 end.
Lemma record_quarter m l : 0 <= m ->
  shr_record_of_loc m l = times 2 shr_1 {| shr_m := 4 * m + quarter l; shr_r := false; shr_s := false |}.
Proof.
  intros Hm. assert (Hq : 0 <= quarter l <= 3) by (destruct l as [|[]]; cbn; lia).
  cbn [times]. rewrite shr_1_half by lia. rewrite shr_1_half by (apply Z.div_pos; lia). rewrite Z.div_div by lia.
  replace ((4 * m + quarter l) / (2 * 2)) with m by (apply (Z.div_unique _ _ _ (quarter l)); lia).
  assert (E : exists c d, quarter l = 2 * c + d /\ 0 <= d < 2 /\ shr_record_of_loc m l = {| shr_m := m; shr_r := Z.odd c; shr_s := Z.odd d |}).
  { destruct l as [|[]]; [exists 0, 0|exists 1, 0|exists 0, 1|exists 1, 1]; cbn [quarter]; repeat split; lia. }
  destruct E as (c & d & -> & Hd & ->). replace ((4 * m + (2 * c + d)) / 2) with (2 * m + c) by (apply (Z.div_unique _ _ _ d); lia).
  f_equal.
  - rewrite Z.odd_add, Z.odd_mul. change (Z.odd 2) with false. cbn [andb]. rewrite xorb_false_l. reflexivity.
  - rewrite !Z.odd_add, !Z.odd_mul. change (Z.odd 2) with false. change (Z.odd 4) with false. cbn [andb].
    rewrite !xorb_false_l, orb_false_r. reflexivity.
Qed.
Lemma shr_fexp_quarter m e l x e' : 0 <= m -> e <= fexp 53 1024 (Zdigits2 m + e) -> shr_fexp 53 1024 m e l = (x, e') ->
  kept (4 * m + quarter l) (Z.to_nat (fexp 53 1024 (Zdigits2 m + e) - e) + 2) x.
Proof.
  intros Hm He H. assert (Hq : 0 <= quarter l <= 3) by (destruct l as [|[]]; cbn; lia).
  assert (T : forall n y, times (n + 2) shr_1 y = times n shr_1 (times 2 shr_1 y)).
  { induction n as [|n IH]; intros y; [reflexivity|]. cbn [Nat.add]. change (times (S (n + 2)) shr_1 y) with (shr_1 (times (n + 2) shr_1 y)). rewrite IH. reflexivity. }
  unfold shr_fexp, shr in H. destruct (fexp 53 1024 (Zdigits2 m + e) - e) as [|p|p] eqn:E; [| |lia]; injection H as <- <-; rewrite record_quarter by exact Hm.
  - change (Z.to_nat 0 + 2)%nat with 2%nat. apply shr_iter. lia.
  - rewrite iter_pos_nat, <- T. change (Z.to_nat (Z.pos p)) with (Pos.to_nat p). apply shr_iter. lia.
Qed.

(** [m 2^e] in 53 bits: the number kept is one of the two next to it, in canonical form. *)
Lemma round_aux_any s m e l : 0 <= m -> let f := fexp 53 1024 (Zdigits2 m + e) in e <= f ->
  exists q, m / 2 ^ (f - e) <= q <= m / 2 ^ (f - e) + 1
    /\ ((l = loc_Exact -> 2 * Z.abs (q * 2 ^ (f - e) - m) <= 2 ^ (f - e) /\ (m mod 2 ^ (f - e) = 0 -> q * 2 ^ (f - e) = m))
        /\ 2 * Z.abs (4 * (q * 2 ^ (f - e)) - (4 * m + quarter l)) <= 4 * 2 ^ (f - e))
    /\ (q = 0 /\ binary_round_aux 53 1024 s m e l = S754_zero s
        \/ exists k ek, f <= ek /\ Z.pos k * 2 ^ (ek - f) = q /\ canonical_mantissa 53 1024 k ek = true
             /\ binary_round_aux 53 1024 s m e l = if ek <=? 971 then S754_finite s k ek else S754_infinity s).
Proof.
  intros Hm f He. unfold binary_round_aux. destruct (shr_fexp 53 1024 m e l) as [x e1] eqn:E1.
  assert (X : l = loc_Exact -> kept m (Z.to_nat (f - e)) x).
  { intros ->. apply shr_fexp_exact in E1 as [E1 _]; [|exact Hm]. exact E1. }
  assert (Y : kept (4 * m + quarter l) (Z.to_nat (f - e) + 2) x) by (eapply shr_fexp_quarter; eassumption).
  apply shr_fexp_any in E1 as [M1 E1]; [|exact Hm]. fold f in M1, E1. rewrite Z.max_r in M1, E1 by lia.
  assert (e1 = f) by lia. clear E1. subst e1.
  pose proof (round_even_range (shr_m x) (loc_of_shr_record x)) as R.
  assert (X' : forall q, q = round_nearest_even (shr_m x) (loc_of_shr_record x) -> l = loc_Exact ->
     2 * Z.abs (q * 2 ^ (f - e) - m) <= 2 ^ (f - e) /\ (m mod 2 ^ (f - e) = 0 -> q * 2 ^ (f - e) = m)).
  { intros q Eq El. destruct (round_kept m _ x Hm (X El) q Eq) as (X1 & X2 & _). rewrite Z2Nat.id in X1, X2 by lia. split; [exact X1|].
    intros X3. rewrite (X2 X3). pose proof (Z.div_mod m (2 ^ (f - e)) ltac:(apply Z.pow_nonzero; lia)). lia. }
  specialize (X' _ eq_refl). clear X.
  destruct (round_kept (4 * m + quarter l) _ x ltac:(destruct l as [|[]]; unfold quarter; lia) Y _ eq_refl) as (Y' & _). clear Y. rewrite Nat2Z.inj_add, Z2Nat.id, Z.pow_add_r in Y' by lia.
  change (2 ^ Z.of_nat 2) with 4 in Y'.
  set (q := round_nearest_even _ _) in *. clearbody q.
  rewrite M1 in R. clear M1 x. exists q. split; [exact R|]. split; [split; [exact X'|]|].
  { rewrite (Z.mul_comm 4 (2 ^ (f - e))). replace (4 * (q * 2 ^ (f - e))) with (q * (2 ^ (f - e) * 4)) by ring. exact Y'. }
  clear X' Y'.
  assert (P : 0 < 2 ^ (f - e)) by (apply Z.pow_pos_nonneg; lia).
  assert (Q0 : 0 <= m / 2 ^ (f - e)) by (apply Z.div_pos; lia).
  destruct (shr_fexp 53 1024 q f loc_Exact) as [y e2] eqn:E2. apply shr_fexp_any in E2 as [M2 E2]; [|lia].
  destruct q as [|k|k]; [|right|lia].
  { left. split; [reflexivity|]. rewrite M2. rewrite Z.div_0_l by (apply Z.pow_nonzero; lia). reflexivity. }
  cbn [Zdigits2] in M2, E2. set (dk := Z.pos (digits2_pos k)) in *. pose proof (digits_pos k) as (D0 & D1 & D2). fold dk in D0, D1, D2.
  (* digits of the rounded number *)
  assert (T : m < 2 ^ (f - e) /\ Z.pos k = 1 /\ f = -1074 \/ 0 < m /\ let d := Zdigits2 m + e - f in 0 < d /\ 2 ^ (d - 1) <= Z.pos k <= 2 ^ d).
  { destruct m as [|m|m]; [left|clear Hm|lia].
    - rewrite Z.div_0_l in R by lia. split; [exact P|]. split; [lia|]. unfold f, fexp, emin in *. cbn [Zdigits2] in *. lia.
    - cbn [Zdigits2] in *. pose proof (digits_pos m) as (A0 & A1 & A2). set (dm := Z.pos (digits2_pos m)) in *.
      destruct (Z_le_gt_dec (dm + e - f) 0) as [L|L].
      + left. assert (2 ^ dm <= 2 ^ (f - e)) by (apply Z.pow_le_mono_r; lia). rewrite Z.div_small in R by lia.
        split; [lia|]. split; [lia|]. unfold f, fexp, emin in *. lia.
      + right. split; [lia|]. cbv zeta. split; [lia|].
        assert (2 ^ (dm + e - f - 1) * 2 ^ (f - e) = 2 ^ (dm - 1)) by (rewrite <- Z.pow_add_r by lia; f_equal; lia).
        assert (2 ^ (dm + e - f) * 2 ^ (f - e) = 2 ^ dm) by (rewrite <- Z.pow_add_r by lia; f_equal; lia).
        assert (2 ^ (dm + e - f - 1) <= Z.pos m / 2 ^ (f - e)) by (apply Z.div_le_lower_bound; nia).
        assert (Z.pos m / 2 ^ (f - e) < 2 ^ (dm + e - f)) by (apply Z.div_lt_upper_bound; nia). lia. }
  assert (U : fexp 53 1024 (dk + f) = f \/ Z.pos k = 2 ^ 53 /\ dk = 54 /\ -1074 <= f).
  { destruct T as [(_ & T & F)|(_ & T0 & T1)].
    - left. assert (dk = 1). { unfold dk. apply digits_eq. rewrite T. cbn. lia. } unfold fexp, emin. lia.
    - set (d := Zdigits2 m + e - f) in *. assert (Fd : f = Z.max (d + f - 53) (-1074)) by (unfold d, f, fexp, emin in *; lia).
      destruct (Z.eq_dec (Z.pos k) (2 ^ d)) as [C|C].
      + assert (dk = d + 1). { unfold dk. apply digits_eq. rewrite C. replace (d + 1 - 1) with d by lia. split; [lia|]. apply Z.pow_lt_mono_r; lia. }
        destruct (Z.eq_dec d 53) as [C'|C']; [right; rewrite C, C'; repeat split; lia|]. left. unfold fexp, emin. lia.
      + assert (dk = d). { unfold dk. apply digits_eq. lia. } left. unfold fexp, emin. lia. }
  destruct U as [U|(U1 & U2 & U3)].
  - rewrite U, Z.sub_diag in M2, E2. cbn [Z.max] in M2, E2. rewrite Z.div_1_r in M2.
    exists k, f. split; [lia|]. split; [rewrite Z.sub_diag; lia|]. split; [unfold canonical_mantissa; apply Zeq_is_eq_bool; exact U|].
    rewrite M2, E2, Z.add_0_r. reflexivity.
  - rewrite U2 in M2, E2. assert (X : fexp 53 1024 (54 + f) = f + 1) by (unfold fexp, emin; lia). rewrite X in M2, E2.
    replace (Z.max 0 (f + 1 - f)) with 1 in M2, E2 by lia. rewrite U1 in M2. change (2 ^ 53 / 2 ^ 1) with 4503599627370496 in M2.
    exists 4503599627370496%positive, (f + 1). split; [lia|]. split; [replace (f + 1 - f) with 1 by lia; rewrite U1; reflexivity|].
    split; [unfold canonical_mantissa; apply Zeq_is_eq_bool; change (Z.pos (digits2_pos 4503599627370496)) with 53; unfold fexp, emin; lia|].
    rewrite M2, E2. reflexivity.
Qed.

(** A floating-point datum of the type: canonical and below 2^1024 ([valid_binary] of the standard library). *)
Definition f64_ok (x : f64) : Prop := match x with S754_finite _ k e => bounded 53 1024 k e = true | _ => True end.

Lemma round_aux_ok s m e l : 0 <= m -> e <= fexp 53 1024 (Zdigits2 m + e) -> f64_ok (binary_round_aux 53 1024 s m e l).
Proof.
  intros Hm He. destruct (round_aux_any s m e l Hm He) as (q & _ & _ & [[_ ->]|(k & ek & _ & _ & C & ->)]); [exact I|].
  destruct (Z.leb_spec ek 971) as [L|L]; [|exact I]. cbn [f64_ok]. unfold bounded. rewrite C. apply Z.leb_le. lia.
Qed.
Lemma binary_round_ok s m e : f64_ok (binary_round 53 1024 s m e).
Proof.
  unfold binary_round, shl_align. set (f := fexp 53 1024 (Z.pos (digits2_pos m) + e)). destruct (f - e) as [|d|d] eqn:E.
  - apply round_aux_ok; [lia|]. cbn [Zdigits2]. fold f. lia.
  - apply round_aux_ok; [lia|]. cbn [Zdigits2]. fold f. lia.
  - apply round_aux_ok; [lia|]. cbn [Zdigits2].
    assert (H : shift_pos d m = (m * Z.to_pos (2 ^ Z.pos d))%positive).
    { apply Pos2Z.inj. rewrite shift_pos_mul, Pos2Z.inj_mul, Z2Pos.id by (apply Z.pow_pos_nonneg; lia). reflexivity. }
    rewrite H, digits_mul_pow by lia. replace (Z.pos (digits2_pos m) + Z.pos d + f) with (Z.pos (digits2_pos m) + e) by lia. fold f. lia.
Qed.
Lemma f64_of_Z_ok z : f64_ok (f64_of_Z z).
Proof. unfold f64_of_Z, binary_normalize. destruct z; [exact I|apply binary_round_ok|apply binary_round_ok]. Qed.

Lemma fexp_mono a b : a <= b -> fexp 53 1024 a <= fexp 53 1024 b.
Proof. unfold fexp, emin. lia. Qed.

(** The quotient has enough digits. *)
Lemma div_core_ok a ea b eb : let '(q, e, l) := SFdiv_core_binary 53 1024 (Z.pos a) ea (Z.pos b) eb in
  0 <= q /\ e <= fexp 53 1024 (Zdigits2 q + e).
Proof.
  unfold SFdiv_core_binary. cbn [Zdigits2]. pose proof (digits_pos a) as (A0 & A1 & A2). pose proof (digits_pos b) as (B0 & B1 & B2).
  set (da := Z.pos (digits2_pos a)) in *. set (db := Z.pos (digits2_pos b)) in *.
  set (f := fexp 53 1024 (da + ea - (db + eb))). set (e' := Z.min f (ea - eb)). set (sh := ea - eb - e').
  assert (Hs : 0 <= sh) by (unfold sh, e'; lia).
  assert (Em : match sh with Z0 => Z.pos a | Zpos _ => Z.shiftl (Z.pos a) sh | Zneg _ => 0 end = Z.pos a * 2 ^ sh).
  { destruct sh as [|p|p] eqn:E; [rewrite Z.pow_0_r; lia| |lia]. rewrite Z.shiftl_mul_pow2 by lia. reflexivity. }
  rewrite Em. clear Em. assert (P : 0 < 2 ^ sh) by (apply Z.pow_pos_nonneg; lia).
  pose proof (Z_div_mod (Z.pos a * 2 ^ sh) (Z.pos b) ltac:(lia)) as DM. destruct (Z.div_eucl (Z.pos a * 2 ^ sh) (Z.pos b)) as [q r].
  destruct DM as [DM Hr]. assert (Hq : 0 <= q) by nia. split; [exact Hq|].
  (* q >= 2^(da-1+sh-db), so it has at least da+sh-db digits *)
  assert (HF : da + sh - db <= Zdigits2 q).
  { destruct (Z_le_gt_dec (da + sh - db) 0) as [L|L]; [destruct q; cbn [Zdigits2]; lia|].
    assert (2 ^ (da + sh - db - 1) <= q).
    { assert (E1 : 2 ^ (da - 1) * 2 ^ sh = 2 ^ (da + sh - 1)) by (rewrite <- Z.pow_add_r by lia; f_equal; lia).
      assert (E2 : 2 ^ (da + sh - db - 1) * 2 ^ db = 2 ^ (da + sh - 1)) by (rewrite <- Z.pow_add_r by lia; f_equal; lia).
      assert (0 < 2 ^ (da + sh - db - 1)) by (apply Z.pow_pos_nonneg; lia). nia. }
    destruct q as [|q|q]; [assert (0 < 2 ^ (da + sh - db - 1)) by (apply Z.pow_pos_nonneg; lia); lia| |lia].
    cbn [Zdigits2]. pose proof (digits_pos q) as (Q0 & Q1 & Q2). destruct (Z_le_gt_dec (da + sh - db) (Z.pos (digits2_pos q))) as [G|G]; [exact G|].
    assert (2 ^ Z.pos (digits2_pos q) <= 2 ^ (da + sh - db - 1)) by (apply Z.pow_le_mono_r; lia). lia. }
  assert (e' <= f) by (unfold e'; lia). transitivity f; [assumption|]. apply fexp_mono. unfold sh in HF. lia.
Qed.
Lemma round_ratio_ok s a b : f64_ok (round_ratio s a b).
Proof.
  unfold round_ratio. pose proof (div_core_ok a 0 b 0) as H. destruct (SFdiv_core_binary _ _ _ _ _ _) as [[q e] l].
  destruct H. apply round_aux_ok; assumption.
Qed.
Lemma round_decimal_ok s d x : f64_ok (round_decimal s d x).
Proof. unfold round_decimal. destruct d; [exact I| |exact I]. destruct x; [apply binary_round_ok|apply binary_round_ok|apply round_ratio_ok]. Qed.
Lemma parse_f64_ok s x : parse_f64 s = Some x -> f64_ok x.
Proof.
  unfold parse_f64. destruct (span_sign s) as [neg r]. cbv zeta. destruct (_ || _); [intros [= <-]; exact I|].
  destruct (list_eqb _ _); [intros [= <-]; exact I|]. unfold parse_number. destruct (span_digits r) as [int r1].
  destruct (match r1 with [] => _ | _ => _ end) as [frac r2].
  assert (H : forall o : option Z, match o with Some x0 => Some (round_decimal neg (digits_value (int ++ frac)) (x0 - Z.of_nat (length frac))) | None => None end = Some x -> f64_ok x).
  { intros [o|]; [|discriminate]. intros [= <-]. apply round_decimal_ok. }
  destruct int, frac; try discriminate; apply H.
Qed.

(** ** [Real::new] *)

(** The position of the leading bit: 2^(t-1) <= |x| < 2^t. *)
Definition mag (k : positive) (e : Z) : Z := Z.pos (digits2_pos k) + e.
Lemma bounded_digits k e : bounded 53 1024 k e = true -> Z.pos (digits2_pos k) <= 53 /\ -1073 <= mag k e.
Proof.
  unfold bounded, canonical_mantissa, mag. intros H. apply andb_true_iff in H as [H _]. apply Zeq_bool_eq in H.
  unfold fexp, emin in H. pose proof (digits_pos k). lia.
Qed.
Lemma fract_mag s k e : bounded 53 1024 k e = true -> has_fract (S754_finite s k e) = true -> e < 0 /\ mag k e <= 52.
Proof.
  intros B H. apply bounded_digits in B as [B _]. unfold has_fract in H. destruct e as [|e|e]; try discriminate. unfold mag. lia.
Qed.
Lemma ten_f64 : f64_of_Z 10 = S754_finite false 5629499534213120 (-49).
Proof. vm_compute. reflexivity. Qed.

Lemma times_ten s k e : bounded 53 1024 k e = true -> mag k e <= 52 ->
  exists k' e', fmul (S754_finite s k e) (f64_of_Z 10) = S754_finite s k' e' /\ bounded 53 1024 k' e' = true /\ mag k e + 3 <= mag k' e'
    /\ (Qabs (dy (Z.pos k') e' - 10 * dy (Z.pos k) e) * 2 ^ 53 <= 10 * dy (Z.pos k) e)%Q.
Proof.
  intros B M. rewrite ten_f64. unfold fmul, SFmul. rewrite xorb_false_r. pose proof (bounded_digits _ _ B) as [_ B2].
  set (m := (k * 5629499534213120)%positive). pose proof (digits_pos k) as (K0 & K1 & K2). pose proof (digits_pos m) as (M0 & M1 & M2).
  unfold mag in *. set (dk := Z.pos (digits2_pos k)) in *. set (dm := Z.pos (digits2_pos m)) in *.
  assert (Em : Z.pos m = Z.pos k * 5629499534213120) by (unfold m; apply Pos2Z.inj_mul).
  assert (P1 : 2 ^ (dk - 1) * 2 ^ 52 = 2 ^ (dk + 51)) by (rewrite <- Z.pow_add_r by lia; f_equal; lia).
  assert (P2 : 2 ^ dk * 2 ^ 53 = 2 ^ (dk + 53)) by (rewrite <- Z.pow_add_r by lia; f_equal; lia).
  change (2 ^ 52) with 4503599627370496 in P1. change (2 ^ 53) with 9007199254740992 in P2.
  assert (Hd : dk + 52 <= dm <= dk + 53).
  { split.
    - destruct (Z_le_gt_dec (dk + 52) dm); [assumption|]. assert (2 ^ dm <= 2 ^ (dk + 51)) by (apply Z.pow_le_mono_r; lia). nia.
    - destruct (Z_le_gt_dec dm (dk + 53)); [assumption|]. assert (2 ^ (dk + 53) <= 2 ^ (dm - 1)) by (apply Z.pow_le_mono_r; lia). nia. }
  destruct (round_aux_any s (Z.pos m) (e + -49) loc_Exact ltac:(lia)) as (q & R & N & Q).
  { cbn [Zdigits2]. fold dm. unfold fexp, emin. lia. }
  cbn [Zdigits2] in R, N, Q. fold dm in R, N, Q. revert N. set (f := fexp 53 1024 (dm + (e + -49))) in *.
  assert (Hf : f = Z.max (dm + (e + -49) - 53) (-1074)) by (unfold f, fexp, emin; lia). clearbody f.
  set (T := dm + (e + -49)) in *. assert (L : 2 ^ (T - f - 1) <= q).
  { transitivity (Z.pos m / 2 ^ (f - (e + -49))); [|lia]. apply Z.div_le_lower_bound; [apply Z.pow_pos_nonneg; lia|].
    rewrite <- Z.pow_add_r by lia. replace (f - (e + -49) + (T - f - 1)) with (dm - 1) by lia. exact M1. }
  assert (U : q <= 2 ^ (T - f)).
  { assert (Z.pos m / 2 ^ (f - (e + -49)) < 2 ^ (T - f)); [|lia]. apply Z.div_lt_upper_bound; [apply Z.pow_pos_nonneg; lia|].
    rewrite <- Z.pow_add_r by lia. replace (f - (e + -49) + (T - f)) with dm by lia. exact M2. }
  assert (0 < 2 ^ (T - f - 1)) by (apply Z.pow_pos_nonneg; lia).
  destruct Q as [[Q _]|(k' & ek & Q1 & Q2 & Q3 & Q4)]; [lia|].
  pose proof (digits_pos k') as (J0 & J1 & J2). set (dj := Z.pos (digits2_pos k')) in *.
  assert (P : 0 < 2 ^ (ek - f)) by (apply Z.pow_pos_nonneg; lia).
  assert (Hl : T <= dj + ek).
  { destruct (Z_le_gt_dec T (dj + ek)); [assumption|]. assert (E : 2 ^ dj * 2 ^ (ek - f) = 2 ^ (dj + ek - f)) by (rewrite <- Z.pow_add_r by lia; f_equal; lia).
    assert (2 ^ (dj + ek - f) <= 2 ^ (T - f - 1)) by (apply Z.pow_le_mono_r; lia). nia. }
  assert (Hu : dj + ek <= T + 1).
  { destruct (Z_le_gt_dec (dj + ek) (T + 1)); [assumption|]. assert (E : 2 ^ (dj - 1) * 2 ^ (ek - f) = 2 ^ (dj - 1 + ek - f)) by (rewrite <- Z.pow_add_r by lia; f_equal; lia).
    assert (2 ^ (T - f) < 2 ^ (dj - 1 + ek - f)) by (apply Z.pow_lt_mono_r; lia). nia. }
  intros N. exists k', ek. rewrite Q4. destruct N as [N _]. specialize (N eq_refl). destruct N as [N1 N2]. assert (X : ek <= 971) by (clear - Hu B2 M Hd Q1 J0; lia).
  rewrite (proj2 (Z.leb_le _ _) X). split; [reflexivity|].
  split; [unfold bounded; rewrite Q3; apply Z.leb_le; exact X|]. split; [clear - Hl Hd; lia|].
  (* the product before and after rounding, in units of 2^(e-49) *)
  clear R U L Hl Hu J0 J1 J2 P P1 P2 K1 K2.
  assert (Er : Z.abs (q * 2 ^ (f - (e + -49)) - Z.pos m) * 2 ^ 53 <= Z.pos m).
  { destruct (Z_le_gt_dec f (-1074)) as [G|G].
    - assert (-1074 <= e) by (clear - B; apply bounded_cases in B; lia). assert (f = -1074) by lia. rewrite N2; [rewrite Z.sub_diag; cbn; lia|].
      assert (Dv : Z.pos m = Z.pos k * 10 * 2 ^ (e + 1074) * 2 ^ (f - (e + -49))).
      { rewrite Em. change 5629499534213120 with (10 * 2 ^ 49). rewrite <- (Z.mul_assoc (Z.pos k * 10)), <- Z.pow_add_r by lia.
        replace (e + 1074 + (f - (e + -49))) with 49 by lia. ring. }
      rewrite Dv. apply Z.mod_mul, Z.pow_nonzero; lia.
    - assert (Ef : f - (e + -49) = dm - 53) by lia. rewrite Ef in *.
      assert (Ep : 2 ^ (dm - 1) = 2 ^ 52 * 2 ^ (dm - 53)) by (rewrite <- Z.pow_add_r by lia; f_equal; lia).
      change (2 ^ 52) with 4503599627370496 in Ep. change (2 ^ 53) with 9007199254740992. lia. }
  assert (V1 : (10 * dy (Z.pos k) e == dy (Z.pos m) (e + -49))%Q).
  { rewrite Em. change 5629499534213120 with (10 * 2 ^ 49). replace (Z.pos k * (10 * 2 ^ 49)) with (Z.pos k * 10 * 2 ^ 49) by ring.
    rewrite dy_shift by lia. replace (e + -49 + 49) with e by lia. unfold dy. rewrite inject_Z_mult. ring. }
  assert (V2 : (dy (Z.pos k') ek == dy (q * 2 ^ (f - (e + -49))) (e + -49))%Q).
  { rewrite <- Q2. rewrite <- Z.mul_assoc, <- Z.pow_add_r by lia. rewrite dy_shift by lia. replace (e + -49 + (ek - f + (f - (e + -49)))) with ek by lia. reflexivity. }
  rewrite V1, V2. unfold dy. setoid_replace (inject_Z (q * 2 ^ (f - (e + -49))) * 2 ^ (e + -49) - inject_Z (Z.pos m) * 2 ^ (e + -49))%Q
    with (inject_Z (q * 2 ^ (f - (e + -49)) - Z.pos m) * 2 ^ (e + -49))%Q by (unfold Zminus; rewrite inject_Z_plus, inject_Z_opp; ring).
  rewrite Qabs_Qmult, (Qabs_pos (2 ^ (e + -49))) by (apply Qlt_le_weak, two_pos).
  setoid_replace (Qabs (inject_Z (q * 2 ^ (f - (e + -49)) - Z.pos m)) * 2 ^ (e + -49) * 2 ^ 53)%Q
    with (Qabs (inject_Z (q * 2 ^ (f - (e + -49)) - Z.pos m)) * 2 ^ 53 * 2 ^ (e + -49))%Q by ring.
  apply Qmult_le_compat_r; [|apply Qlt_le_weak, two_pos].
  change (2 ^ 53)%Q with (inject_Z (2 ^ 53)).
  rewrite Zle_Qle in Er. rewrite inject_Z_mult in Er. exact Er.
Qed.

Lemma new_loop_ends : forall n s k ek e, bounded 53 1024 k ek = true -> 53 <= mag k ek + 3 * Z.of_nat n -> Z.of_nat n <= 1000 -> - 1000 <= e - Z.of_nat n -> e <= 0 ->
  exists k' ek' e', new_loop (S n) (S754_finite s k ek) e = Ok (S754_finite s k' ek', e')
    /\ bounded 53 1024 k' ek' = true /\ has_fract (S754_finite s k' ek') = false /\ e - Z.of_nat n <= e' <= e
    /\ (has_fract (S754_finite s k ek) = false -> k' = k /\ ek' = ek /\ e' = e).
Proof.
  induction n as [|n IH]; intros s k ek e B M Hn He He'; cbn [new_loop]; destruct (has_fract (S754_finite s k ek)) eqn:F.
  - apply fract_mag in F as [_ F]; [lia|exact B].
  - exists k, ek, e. repeat split; try assumption; lia.
  - pose proof (fract_mag _ _ _ B F) as [_ Fm]. destruct (times_ten s k ek B Fm) as (k1 & e1 & E & B1 & M1 & _). rewrite E.
    rewrite as_i32_ok by (unfold i32_min, i32_max; lia). cbn [bind].
    destruct (IH s k1 e1 (e - 1) B1) as (k' & ek' & e' & R & B' & F' & He1 & _); try lia.
    exists k', ek', e'. split; [exact R|]. split; [exact B'|]. split; [exact F'|]. split; [lia|discriminate].
  - exists k, ek, e. repeat split; try assumption; lia.
Qed.

(** The number held by an integral datum. *)
Definition int_of (k : positive) (e : Z) : Z := match e with Zneg d => Z.pos k / 2 ^ Z.pos d | _ => Z.pos k * 2 ^ e end.
Lemma int_of_spec s k e : has_fract (S754_finite s k e) = false ->
  0 < int_of k e /\ (0 <= e -> int_of k e = Z.pos k * 2 ^ e) /\ (e <= 0 -> Z.pos k = int_of k e * 2 ^ (- e)).
Proof.
  unfold has_fract, int_of. intros H. destruct e as [|e|e].
  - rewrite Z.pow_0_r. lia.
  - split; [|split; [reflexivity|lia]]. assert (0 < 2 ^ Z.pos e) by (apply Z.pow_pos_nonneg; lia). nia.
  - apply negb_false_iff, Z.eqb_eq in H. assert (P : 0 < 2 ^ Z.pos e) by (apply Z.pow_pos_nonneg; lia).
    pose proof (Z.div_mod (Z.pos k) (2 ^ Z.pos e) ltac:(lia)) as DM. rewrite H in DM. change (- Z.neg e) with (Z.pos e).
    split; [nia|]. split; [lia|]. intros _. lia.
Qed.
Lemma trunc_int s k e : f64_trunc (S754_finite s k e) = if s then - int_of k e else int_of k e.
Proof. destruct s; reflexivity. Qed.
(** A common scale for the comparisons below. *)
Lemma int_of_scale s k e x : has_fract (S754_finite s k e) = false -> 0 <= x -> 0 <= x + e -> Z.pos k * 2 ^ (x + e) = int_of k e * 2 ^ x.
Proof.
  intros H Hx Hxe. destruct (int_of_spec s k e H) as (_ & H1 & H2). destruct (Z_le_gt_dec 0 e) as [L|L].
  - rewrite H1 by lia. rewrite Z.pow_add_r by lia. ring.
  - rewrite H2 by lia. rewrite <- Z.mul_assoc, <- Z.pow_add_r by lia. replace (- e + (x + e)) with x by lia. reflexivity.
Qed.

(** An integer that has at most 53 significant bits and lies below 2^1024 is a datum. *)
Lemma datum_exists n u : 0 < n < 2 ^ 53 -> 0 <= u -> n * 2 ^ u < 2 ^ 1024 ->
  exists k ek, bounded 53 1024 k ek = true /\ (forall s, has_fract (S754_finite s k ek) = false) /\ int_of k ek = n * 2 ^ u.
Proof.
  intros Hn Hu Hlt. destruct (normal_form n Hn) as (k & j & Hk & Hj & E). exists k, (u - j).
  assert (Hb : u - j <= 971).
  { destruct (Z_le_gt_dec (u - j) 971); [assumption|]. unfold normal in Hk. rewrite E in Hk.
    assert (E2 : 2 ^ u = 2 ^ (u - j) * 2 ^ j) by (rewrite <- Z.pow_add_r by lia; f_equal; lia).
    assert (E3 : 2 ^ 972 <= 2 ^ (u - j)) by (apply Z.pow_le_mono_r; lia).
    assert (E4 : 2 ^ 1024 = 2 ^ 52 * 2 ^ 972) by (rewrite <- Z.pow_add_r by lia; reflexivity).
    assert (E5 : 2 ^ 52 * 2 ^ 972 <= n * 2 ^ j * 2 ^ (u - j)) by (apply Z.mul_le_mono_nonneg; [lia|lia|apply Z.pow_nonneg; lia|exact E3]).
    assert (E6 : n * 2 ^ u = n * 2 ^ j * 2 ^ (u - j)) by (rewrite E2; ring). rewrite <- E4, <- E6 in E5. exfalso. apply (Z.lt_irrefl (2 ^ 1024)).
    eapply Z.le_lt_trans; eassumption. }
  split; [apply bounded_normal; [exact Hk|lia]|].
  assert (X : forall d, u - j = Z.neg d -> Z.pos k = n * 2 ^ u * 2 ^ Z.pos d).
  { intros d Ed. rewrite E, <- Z.mul_assoc, <- Z.pow_add_r by lia. f_equal. f_equal. lia. }
  split.
  - intros s. unfold has_fract. destruct (u - j) as [|d|d] eqn:Ed; try reflexivity. rewrite (X d eq_refl).
    rewrite Z.mod_mul by (apply Z.pow_nonzero; lia). reflexivity.
  - unfold int_of. destruct (u - j) as [|d|d] eqn:Ed.
    + assert (u = j) by lia. subst j. rewrite Z.pow_0_r. lia.
    + rewrite <- Ed, E, <- Z.mul_assoc, <- Z.pow_add_r by lia. f_equal. f_equal. lia.
    + rewrite (X d eq_refl). apply Z.div_mul, Z.pow_nonzero; lia.
Qed.
Lemma bounded_below k e : bounded 53 1024 k e = true -> (forall s, has_fract (S754_finite s k e) = false) -> int_of k e < 2 ^ 1024.
Proof.
  intros B H. pose proof (int_of_spec false k e (H false)) as (P & H1 & H2). apply bounded_cases in B as [L B].
  assert (K : Z.pos k < 2 ^ 53) by (destruct B as [[[_ B] _]|[B _]]; lia).
  assert (E4 : 2 ^ 1024 = 2 ^ 53 * 2 ^ 971) by (rewrite <- Z.pow_add_r by lia; reflexivity).
  destruct (Z_le_gt_dec 0 e) as [G|G].
  - rewrite H1 by lia. assert (X1 : 2 ^ e <= 2 ^ 971) by (apply Z.pow_le_mono_r; lia). assert (X2 : 0 < 2 ^ e) by (apply Z.pow_pos_nonneg; lia).
    rewrite E4. clear - K X1 X2. revert K X1 X2. generalize (2 ^ 971) (2 ^ 53) (2 ^ e). intros; nia.
  - specialize (H2 ltac:(lia)). assert (X1 : 0 < 2 ^ (- e)) by (apply Z.pow_pos_nonneg; lia). assert (X2 : 2 ^ 53 <= 2 ^ 1024) by (apply Z.pow_le_mono_r; lia).
    clear - K H2 X1 X2 P. revert K H2 X1 X2 P. generalize (2 ^ 1024) (2 ^ 53) (2 ^ (- e)) (int_of k e). intros; nia.
Qed.
Lemma five_pow n i : 0 <= i -> (n * 2 ^ i) mod 5 = 0 -> n mod 5 = 0.
Proof.
  intros Hi. revert i Hi. apply (natlike_ind (fun i => (n * 2 ^ i) mod 5 = 0 -> n mod 5 = 0)).
  - rewrite Z.pow_0_r, Z.mul_1_r. auto.
  - intros i Hi IH H. apply IH. rewrite Z.pow_succ_r in H by lia. replace (n * (2 * 2 ^ i)) with (2 * (n * 2 ^ i)) in H by ring. lia.
Qed.
Lemma ten_split v n i : v mod 10 = 0 -> Z.odd n = true -> 0 < n -> 0 <= i -> v = n * 2 ^ i ->
  exists n', n = 5 * n' /\ 0 < n' /\ 1 <= i /\ v / 10 = n' * 2 ^ (i - 1).
Proof.
  intros H10 On Hn Hi E. exists (n / 5). assert (H5 : n mod 5 = 0). { apply (five_pow n i Hi). rewrite <- E. lia. }
  assert (1 <= i). { destruct (Z.eq_dec i 0) as [->|]; [|lia]. rewrite Z.pow_0_r, Z.mul_1_r in E. subst v. rewrite Zodd_mod in On. apply Zeq_bool_eq in On. lia. }
  split; [lia|]. split; [lia|]. split; [assumption|]. symmetry. apply Z.div_unique_exact; [lia|]. rewrite E.
  replace (2 ^ i) with (2 * 2 ^ (i - 1)) by (rewrite <- Z.pow_succ_r by lia; f_equal; lia).
  assert (n = 5 * (n / 5)) by lia. nia.
Qed.

Lemma rescale k k' e e' f x : 0 <= x + f -> 0 <= x + e -> 0 <= x + e' -> f <= e' -> f <= e - -49 -> k * 2 ^ (x + e) = 10 * (k' * 2 ^ (x + e')) ->
  k * 2 ^ (e - -49 - f) = k' * 2 ^ (e' - f) * 5629499534213120.
Proof.
  intros H1 H2 H3 H4 H5 H. apply (Z.mul_reg_r _ _ (2 ^ (x + f))); [apply Z.pow_nonzero; lia|].
  rewrite <- Z.mul_assoc, <- Z.pow_add_r by lia. replace (e - -49 - f + (x + f)) with (x + e + 49) by lia. rewrite Z.pow_add_r by lia.
  rewrite Z.mul_assoc, H.
  replace (k' * 2 ^ (e' - f) * 5629499534213120 * 2 ^ (x + f)) with (k' * (2 ^ (e' - f) * 2 ^ (x + f)) * 5629499534213120) by ring.
  rewrite <- Z.pow_add_r by lia. replace (e' - f + (x + f)) with (x + e') by lia. change 5629499534213120 with (10 * 2 ^ 49). ring.
Qed.

Lemma scale_exists e e' f : exists y, 0 <= y /\ 0 <= y + e /\ 0 <= y + e' /\ 0 <= y + f.
Proof. exists (Z.max 0 (Z.max (- e) (Z.max (- e') (- f)))). lia. Qed.

(** Division by ten of a multiple of ten is exact. *)
Lemma div_ten s k e : bounded 53 1024 k e = true -> (forall s, has_fract (S754_finite s k e) = false) -> int_of k e mod 10 = 0 ->
  exists k' e', fdiv (S754_finite s k e) (f64_of_Z 10) = S754_finite s k' e' /\ bounded 53 1024 k' e' = true
    /\ (forall s, has_fract (S754_finite s k' e') = false) /\ int_of k' e' * 10 = int_of k e.
Proof.
  intros B F H10. pose proof (int_of_spec false k e (F false)) as (P & H1 & H2). pose proof (bounded_below _ _ B F) as Lt.
  destruct (odd_part (Z.to_pos (int_of k e))) as (n & i & On & Hn & Hi & En). rewrite Z2Pos.id in En by exact P.
  assert (Bk : Z.pos k < 2 ^ 53) by (apply bounded_cases in B as [_ [[[_ B] _]|[B _]]]; lia).
  destruct (ten_split _ n i H10 On Hn Hi En) as (n' & E5 & Hn' & Hi' & Ed).
  (* the odd part has no more bits than the mantissa *)
  assert (Nk : n <= Z.pos k).
  { pose proof (int_of_scale false k e (Z.max 0 (- e)) (F false) ltac:(lia) ltac:(lia)) as Sc. rewrite En in Sc.
    rewrite <- Z.mul_assoc, <- Z.pow_add_r in Sc by lia.
    destruct (Z_le_gt_dec (Z.max 0 (- e) + e) (i + Z.max 0 (- e))) as [G|G].
    - replace (i + Z.max 0 (- e)) with ((i - e) + (Z.max 0 (- e) + e)) in Sc by lia. rewrite (Z.pow_add_r 2 (i - e)) in Sc by lia.
      assert (0 < 2 ^ (Z.max 0 (- e) + e)) by (apply Z.pow_pos_nonneg; lia). assert (0 < 2 ^ (i - e)) by (apply Z.pow_pos_nonneg; lia).
      rewrite Z.mul_assoc in Sc. apply Z.mul_reg_r in Sc; [|lia]. nia.
    - exfalso. replace (Z.max 0 (- e) + e) with ((e - i) + (i + Z.max 0 (- e))) in Sc by lia. rewrite (Z.pow_add_r 2 (e - i)) in Sc by lia.
      assert (0 < 2 ^ (i + Z.max 0 (- e))) by (apply Z.pow_pos_nonneg; lia). rewrite Z.mul_assoc in Sc. apply Z.mul_reg_r in Sc; [|lia].
      replace (2 ^ (e - i)) with (2 * 2 ^ (e - i - 1)) in Sc by (rewrite <- Z.pow_succ_r by lia; f_equal; lia).
      rewrite Zodd_mod in On. apply Zeq_bool_eq in On. rewrite <- Sc in On.
      replace (Z.pos k * (2 * 2 ^ (e - i - 1))) with (2 * (Z.pos k * 2 ^ (e - i - 1))) in On by ring. lia. }
  assert (W : int_of k e = 10 * (int_of k e / 10)) by lia. set (w := int_of k e / 10) in *.
  destruct (datum_exists n' (i - 1)) as (k' & e' & B' & F' & I'); [lia|lia| |].
  { rewrite <- Ed. revert Lt W P. generalize (2 ^ 1024). intros; lia. }
  rewrite <- Ed in I'. exists k', e'. split; [|split; [exact B'|]; split; [exact F'|lia]].
  rewrite ten_f64. unfold fdiv, SFdiv, SFdiv_core_binary. cbn [Zdigits2]. change (Z.pos (digits2_pos 5629499534213120)) with 53.
  pose proof (digits_pos k) as (D0 & D1 & D2). pose proof (digits_pos k') as (D0' & D1' & D2').
  pose proof B' as C'. unfold bounded, canonical_mantissa in C'. apply andb_true_iff in C' as [C' _]. apply Zeq_bool_eq in C'.
  set (dk := Z.pos (digits2_pos k)) in *. set (dk' := Z.pos (digits2_pos k')) in *.
  (* both integers on one scale *)
  set (x := Z.max 0 (Z.max (- e) (- e'))).
  pose proof (int_of_scale false k e x (F false) ltac:(lia) ltac:(lia)) as S1. pose proof (int_of_scale false k' e' x (F' false) ltac:(lia) ltac:(lia)) as S2.
  rewrite I' in S2. rewrite W in S1.
  assert (Q : dk + e <= dk' + e' + 4).
  { destruct (Z_le_gt_dec (dk + e) (dk' + e' + 4)) as [G|G]; [exact G|exfalso].
    assert (E1 : 2 ^ (dk - 1) * 2 ^ (x + e) = 2 ^ (dk - 1 + x + e)) by (rewrite <- Z.pow_add_r by lia; f_equal; lia).
    assert (E2 : 2 ^ dk' * 2 ^ (x + e') = 2 ^ (dk' + x + e')) by (rewrite <- Z.pow_add_r by lia; f_equal; lia).
    assert (E3 : 2 ^ (dk' + x + e') * 2 ^ 4 = 2 ^ (dk' + x + e' + 4)) by (rewrite <- Z.pow_add_r by lia; reflexivity).
    assert (2 ^ (dk' + x + e' + 4) <= 2 ^ (dk - 1 + x + e)) by (apply Z.pow_le_mono_r; lia).
    assert (0 < 2 ^ (x + e)) by (apply Z.pow_pos_nonneg; lia). assert (0 < 2 ^ (x + e')) by (apply Z.pow_pos_nonneg; lia). change (2 ^ 4) with 16 in E3.
    assert (U1 : 2 ^ (dk - 1) * 2 ^ (x + e) <= Z.pos k * 2 ^ (x + e)) by (apply Z.mul_le_mono_nonneg_r; lia).
    assert (U2 : Z.pos k' * 2 ^ (x + e') < 2 ^ dk' * 2 ^ (x + e')) by (apply Z.mul_lt_mono_pos_r; lia).
    assert (U3 : 0 < Z.pos k' * 2 ^ (x + e')) by (apply Z.mul_pos_pos; lia).
    rewrite <- Z.mul_assoc in S1. clear - U1 U2 U3 E1 E2 E3 S1 S2 H. lia. }
  set (f := Z.min (fexp 53 1024 (dk + e - (53 + -49))) (e - -49)).
  assert (Ff : f <= e'). { unfold f. rewrite <- C'. transitivity (fexp 53 1024 (dk + e - (53 + -49))); [lia|]. apply fexp_mono. lia. }
  set (sh := e - -49 - f). assert (Hs : 0 <= sh) by (unfold sh, f; lia).
  assert (Em : match sh with Z0 => Z.pos k | Zpos _ => Z.shiftl (Z.pos k) sh | Zneg _ => 0 end = Z.pos k * 2 ^ sh).
  { destruct sh as [|p|p] eqn:Ep; [rewrite Z.pow_0_r; lia| |lia]. rewrite Z.shiftl_mul_pow2 by lia. reflexivity. }
  rewrite Em. clear Em.
  assert (Ex : Z.pos k * 2 ^ sh = Z.pos k' * 2 ^ (e' - f) * 5629499534213120).
  { destruct (scale_exists e e' f) as (y & Y0 & Y1 & Y2 & Y3).
    pose proof (int_of_scale false k e y (F false) Y0 Y1) as T1. pose proof (int_of_scale false k' e' y (F' false) Y0 Y2) as T2.
    apply (rescale _ _ e e' f y); [exact Y3|exact Y1|exact Y2|exact Ff|unfold f; apply Z.le_min_r|]. rewrite T1, T2, I', W. symmetry. apply Z.mul_assoc. }
  rewrite Ex. pose proof (Z_div_mod (Z.pos k' * 2 ^ (e' - f) * 5629499534213120) 5629499534213120 ltac:(lia)) as DM.
  destruct (Z.div_eucl _ _) as [q r]. destruct DM as [DM Hr]. assert (r = 0 /\ q = Z.pos k' * 2 ^ (e' - f)) as [-> ->] by (clear - DM Hr; lia).
  change (new_location 5629499534213120 0) with loc_Exact. rewrite xorb_false_r. apply round_aux_canonical; assumption.
Qed.

Lemma int_above k e : bounded 53 1024 k e = true -> (forall s, has_fract (S754_finite s k e) = false) ->
  f64_gt (S754_finite false k e) f64_epsilon = true.
Proof.
  intros B F. pose proof (int_of_spec false k e (F false)) as (P & H1 & H2). apply bounded_cases in B as [_ B].
  apply above_epsilon_intro. destruct (Z_le_gt_dec 0 e) as [G|G]; [lia|]. specialize (H2 ltac:(lia)).
  destruct B as [[[_ B] B1]|[B B1]].
  - left. destruct (Z_lt_le_dec (-104) e); [assumption|exfalso]. assert (2 ^ 53 <= 2 ^ (- e)) by (apply Z.pow_le_mono_r; lia). nia.
  - exfalso. assert (2 ^ 53 <= 2 ^ (- e)) by (apply Z.pow_le_mono_r; lia). nia.
Qed.

Lemma is_tenfold_int s k e : bounded 53 1024 k e = true -> (forall s, has_fract (S754_finite s k e) = false) ->
  is_tenfold (S754_finite s k e) = (int_of k e mod 10 =? 0).
Proof.
  intros B F. unfold is_tenfold. cbn [SFabs]. rewrite (int_above k e B F), trunc_int. cbn [andb].
  destruct s; [|reflexivity]. destruct (Z.eqb_spec (- int_of k e mod 10) 0), (Z.eqb_spec (int_of k e mod 10) 0); lia.
Qed.

Lemma normalize_loop_ends : forall n s k ek e, bounded 53 1024 k ek = true -> (forall s, has_fract (S754_finite s k ek) = false) ->
  int_of k ek < 10 ^ Z.of_nat n -> - 1000 <= e -> e + Z.of_nat n <= 1000 ->
  exists k' ek' j, normalize_loop (S n) (S754_finite s k ek) e = Ok (S754_finite s k' ek', e + j)
    /\ bounded 53 1024 k' ek' = true /\ (forall s, has_fract (S754_finite s k' ek') = false) /\ 0 <= j <= Z.of_nat n
    /\ int_of k' ek' * 10 ^ j = int_of k ek /\ int_of k' ek' mod 10 <> 0.
Proof.
  induction n as [|n IH]; intros s k ek e B F Hl He He'; cbn [normalize_loop]; rewrite (is_tenfold_int s k ek B F);
    pose proof (int_of_spec false k ek (F false)) as (P & _).
  - change (10 ^ Z.of_nat 0) with 1 in Hl. lia.
  - destruct (Z.eqb_spec (int_of k ek mod 10) 0) as [H|H].
    + destruct (div_ten s k ek B F H) as (k1 & e1 & E & B1 & F1 & I1). rewrite E, as_i32_ok by (unfold i32_min, i32_max; lia). cbn [bind].
      rewrite Nat2Z.inj_succ, Z.pow_succ_r in Hl by lia.
      destruct (IH s k1 e1 (e + 1) B1 F1) as (k' & ek' & j & R & B' & F' & Hj & I' & N'); try lia.
      exists k', ek', (j + 1). replace (e + (j + 1)) with (e + 1 + j) by lia. split; [exact R|]. split; [exact B'|]. split; [exact F'|]. split; [lia|].
      split; [|exact N']. rewrite Z.pow_add_r by lia. change (10 ^ 1) with 10. lia.
    + exists k, ek, 0. rewrite Z.add_0_r, Z.pow_0_r. repeat split; try assumption; lia.
Qed.

(** [Real::new] returns for every floating-point number; an integer is held exactly. *)
Lemma real_new_total s k e : bounded 53 1024 k e = true ->
  exists k' ek' x, real_new (S754_finite s k e) = Ok (RBinary (S754_finite s k' ek') 10 x 10)
    /\ bounded 53 1024 k' ek' = true /\ (forall s, has_fract (S754_finite s k' ek') = false) /\ -399 <= x <= 399 /\ int_of k' ek' mod 10 <> 0
    /\ ((forall s, has_fract (S754_finite s k e) = false) -> 0 <= x /\ int_of k' ek' * 10 ^ x = int_of k e).
Proof.
  intros B. unfold real_new. pose proof (bounded_digits _ _ B) as [_ M].
  destruct (new_loop_ends 399 s k e 0 B) as (k1 & e1 & x1 & R & B1 & F1 & Hx & Hsame); [change (Z.of_nat 399) with 399; lia..|].
  assert (F1' : forall s, has_fract (S754_finite s k1 e1) = false) by (intros s'; exact F1).
  rewrite R. cbn [bind].
  destruct (normalize_loop_ends 399 s k1 e1 x1 B1 F1') as (k' & ek' & j & R' & B' & F' & Hj & I' & N').
  { pose proof (bounded_below _ _ B1 F1') as L. eapply Z.lt_trans; [exact L|]. vm_compute. reflexivity. }
  { change (Z.of_nat 399) with 399 in Hx. lia. } { change (Z.of_nat 399) with 399 in *. lia. }
  rewrite R'. cbn [bind]. exists k', ek', (x1 + j). split; [reflexivity|]. change (Z.of_nat 399) with 399 in *.
  split; [exact B'|]. split; [exact F'|]. split; [lia|]. split; [exact N'|]. intros F. destruct (Hsame (F s)) as (-> & -> & ->). split; [lia|]. exact I'.
Qed.

(** How far the number held after [j] multiplications is from the exact product. *)
Lemma near_step (v v1 v' a j : Q) : (0 <= v -> 0 <= a -> 0 <= j <= 1000 -> Qabs (v1 - 10 * v) * 2 ^ 53 <= 10 * v ->
  Qabs (v' - a * v1) * 2 ^ 52 <= j * (a * v1) -> Qabs (v' - a * 10 * v) * 2 ^ 52 <= (j + 1) * (a * 10 * v))%Q.
Proof.
  intros Hv Ha [Hj0 Hj1] H1 H2. change (2 ^ 53)%Q with (9007199254740992 # 1)%Q in *. change (2 ^ 52)%Q with (4503599627370496 # 1)%Q in *.
  assert (A : (Qabs (a * v1 - a * 10 * v) * (9007199254740992 # 1) <= a * 10 * v)%Q).
  { setoid_replace (a * v1 - a * 10 * v)%Q with (a * (v1 - 10 * v))%Q by ring. rewrite Qabs_Qmult, (Qabs_pos a) by exact Ha.
    setoid_replace (a * Qabs (v1 - 10 * v) * (9007199254740992 # 1))%Q with ((Qabs (v1 - 10 * v) * (9007199254740992 # 1)) * a)%Q by ring.
    setoid_replace (a * 10 * v)%Q with (10 * v * a)%Q by ring. apply Qmult_le_compat_r; assumption. }
  assert (P : (0 <= a * 10 * v)%Q) by (apply Qmult_le_0_compat; [apply Qmult_le_0_compat; [exact Ha|discriminate]|exact Hv]).
  pose proof (Qabs_triangle (v' - a * v1) (a * v1 - a * 10 * v)) as T.
  setoid_replace (v' - a * v1 + (a * v1 - a * 10 * v))%Q with (v' - a * 10 * v)%Q in T by ring.
  pose proof (Qle_Qabs (a * v1 - a * 10 * v)) as U.
  set (X := (a * v1)%Q) in *. set (Y := (a * 10 * v)%Q) in *. set (D := Qabs (X - Y)) in *. set (E := Qabs (v' - X)) in *. set (G := Qabs (v' - Y)) in *.
  clearbody X Y D E G. clear H1 v v1 v' a Hv Ha.
  assert (J1 : (j * X <= j * (Y + D))%Q) by (rewrite !(Qmult_comm j); apply Qmult_le_compat_r; [lra|exact Hj0]).
  assert (D0 : (0 <= Y - D)%Q) by lra.
  assert (J2 : (j * D * (9007199254740992 # 1) <= 1000 * Y)%Q).
  { apply Qle_trans with (j * Y)%Q.
    - setoid_replace (j * D * (9007199254740992 # 1))%Q with (D * (9007199254740992 # 1) * j)%Q by ring. rewrite (Qmult_comm j). apply Qmult_le_compat_r; assumption.
    - apply Qmult_le_compat_r; assumption. }
  setoid_replace (j * (Y + D))%Q with (j * Y + j * D)%Q in J1 by ring. setoid_replace ((j + 1) * Y)%Q with (j * Y + Y)%Q by ring.
  lra.
Qed.
Lemma new_loop_near : forall n s k ek e k' ek' e', bounded 53 1024 k ek = true -> (n <= 1000)%nat ->
  new_loop n (S754_finite s k ek) e = Ok (S754_finite s k' ek', e') ->
  exists j, e' = e - j /\ 0 <= j < Z.of_nat n
    /\ (Qabs (dy (Z.pos k') ek' - inject_Z (10 ^ j) * dy (Z.pos k) ek) * 2 ^ 52 <= inject_Z j * (inject_Z (10 ^ j) * dy (Z.pos k) ek))%Q.
Proof.
  induction n as [|n IH]; intros s k ek e k' ek' e' B Hn H; cbn [new_loop] in H; [discriminate|].
  destruct (has_fract (S754_finite s k ek)) eqn:F.
  - pose proof (fract_mag _ _ _ B F) as [_ Fm]. destruct (times_ten s k ek B Fm) as (k1 & e1 & E & B1 & M1 & N1). rewrite E in H.
    apply bind_ok in H as (x & Ex & H). unfold as_i32 in Ex. destruct (_ && _); [|discriminate]. injection Ex as <-.
    destruct (IH s k1 e1 (e - 1) k' ek' e' B1 ltac:(lia) H) as (j & Ej & Hj & N). exists (j + 1). split; [lia|]. split; [lia|].
    rewrite Z.pow_add_r by lia. change (10 ^ 1) with 10. rewrite inject_Z_mult, inject_Z_plus.
    apply (near_step (dy (Z.pos k) ek) (dy (Z.pos k1) e1) (dy (Z.pos k') ek') (inject_Z (10 ^ j)) (inject_Z j)).
    + unfold dy. apply Qmult_le_0_compat; [unfold Qle; cbn; lia|apply Qlt_le_weak, two_pos].
    + change 0%Q with (inject_Z 0). rewrite <- Zle_Qle. apply Z.pow_nonneg. lia.
    + change 0%Q with (inject_Z 0). change 1000%Q with (inject_Z 1000). rewrite <- !Zle_Qle. lia.
    + exact N1.
    + exact N.
  - injection H as <- <- <-. exists 0. split; [lia|]. split; [lia|]. rewrite Z.pow_0_r. change (inject_Z 1) with 1%Q. change (inject_Z 0) with 0%Q.
    setoid_replace (dy (Z.pos k) ek - 1 * dy (Z.pos k) ek)%Q with 0%Q by ring. rewrite Qmult_0_l. discriminate.
Qed.
Lemma int_of_dy s k e : has_fract (S754_finite s k e) = false -> (dy (Z.pos k) e == inject_Z (int_of k e))%Q.
Proof.
  intros F. destruct (int_of_spec s k e F) as (_ & H1 & H2). destruct (Z_le_gt_dec 0 e) as [G|G].
  - rewrite H1 by exact G. unfold dy. rewrite inject_Z_mult. apply Qmult_comp; [reflexivity|]. rewrite Zpower_Qpower by exact G. reflexivity.
  - rewrite H2 by lia. rewrite dy_shift by lia. replace (e + - e) with 0 by lia. unfold dy. change (2 ^ 0)%Q with 1%Q. ring.
Qed.
