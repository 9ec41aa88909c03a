(** Rounding to the 24 bits of [f32], as in [PFloat] and [PRound] for 53 bits. *)
From Coq Require Import SpecFloat QArith Qpower Qabs Lqa.
From Verif Require Import Base PArith PHeader MReal PFloat SReal PReal PRound PropReals PropNumber.
Local Open Scope Z_scope.

Lemma shr24_exact m e : 0 <= m ->
  forall x e', shr_fexp 24 128 m e loc_Exact = (x, e') ->
  let n := Z.to_nat (fexp 24 128 (Zdigits2 m + e) - e) in kept m n x /\ e' = e + Z.of_nat n.
Proof.
  intros Hm x e' H n. unfold shr_fexp, shr in H.
  destruct (fexp 24 128 (Zdigits2 m + e) - e) as [|p|p] eqn:E.
  - injection H as <- <-. subst n; cbn. split; [|lia].
    split; cbn; [now rewrite Z.div_1_r | auto].
  - injection H as <- <-. subst n. rewrite iter_pos_nat. split; [|cbn; rewrite positive_nat_Z; lia].
    cbn [shr_record_of_loc]. change (Z.to_nat (Z.pos p)) with (Pos.to_nat p). now apply shr_iter.
  - injection H as <- <-. subst n; cbn. split; [|lia].
    split; cbn; [now rewrite Z.div_1_r | auto].
Qed.
Lemma shr24_any m e l x e' : 0 <= m -> shr_fexp 24 128 m e l = (x, e') ->
  let n := Z.max 0 (fexp 24 128 (Zdigits2 m + e) - e) in shr_m x = m / 2 ^ n /\ e' = e + n.
Proof.
  intros Hm H n. unfold shr_fexp, shr in H. destruct (fexp 24 128 (Zdigits2 m + e) - e) as [|p|p] eqn:E; injection H as <- <-; subst n; cbn [Z.max].
  - rewrite shr_record_m. cbn. rewrite Z.div_1_r. lia.
  - rewrite iter_pos_nat, shr_times_m by (rewrite shr_record_m; exact Hm). rewrite shr_record_m, positive_nat_Z. cbn; lia.
  - rewrite shr_record_m. cbn. rewrite Z.div_1_r. lia.
Qed.
Lemma round24_any s m e l : 0 <= m -> let f := fexp 24 128 (Zdigits2 m + e) in e <= f ->
  exists q, m / 2 ^ (f - e) <= q <= m / 2 ^ (f - e) + 1
    /\ (l = loc_Exact -> 2 * Z.abs (q * 2 ^ (f - e) - m) <= 2 ^ (f - e) /\ (m mod 2 ^ (f - e) = 0 -> q * 2 ^ (f - e) = m))
    /\ (q = 0 /\ binary_round_aux 24 128 s m e l = S754_zero s
        \/ exists k ek, f <= ek /\ Z.pos k * 2 ^ (ek - f) = q /\ canonical_mantissa 24 128 k ek = true
             /\ binary_round_aux 24 128 s m e l = if ek <=? 104 then S754_finite s k ek else S754_infinity s).
Proof.
  intros Hm f He. unfold binary_round_aux. destruct (shr_fexp 24 128 m e l) as [x e1] eqn:E1.
  assert (X : l = loc_Exact -> kept m (Z.to_nat (f - e)) x).
  { intros ->. apply shr24_exact in E1 as [E1 _]; [|exact Hm]. exact E1. }
  apply shr24_any in E1 as [M1 E1]; [|exact Hm]. fold f in M1, E1. rewrite Z.max_r in M1, E1 by lia.
  assert (e1 = f) by lia. clear E1. subst e1.
  pose proof (round_even_range (shr_m x) (loc_of_shr_record x)) as R.
  assert (X' : forall q, q = round_nearest_even (shr_m x) (loc_of_shr_record x) -> l = loc_Exact ->
     2 * Z.abs (q * 2 ^ (f - e) - m) <= 2 ^ (f - e) /\ (m mod 2 ^ (f - e) = 0 -> q * 2 ^ (f - e) = m)).
  { intros q Eq El. destruct (round_kept m _ x Hm (X El) q Eq) as (X1 & X2 & _). rewrite Z2Nat.id in X1, X2 by lia. split; [exact X1|].
    intros X3. rewrite (X2 X3). pose proof (Z.div_mod m (2 ^ (f - e)) ltac:(apply Z.pow_nonzero; lia)). lia. }
  specialize (X' _ eq_refl). clear X. set (q := round_nearest_even _ _) in *. clearbody q.
  rewrite M1 in R. clear M1 x. exists q. split; [exact R|]. split; [exact X'|]. clear X'.
  assert (P : 0 < 2 ^ (f - e)) by (apply Z.pow_pos_nonneg; lia).
  assert (Q0 : 0 <= m / 2 ^ (f - e)) by (apply Z.div_pos; lia).
  destruct (shr_fexp 24 128 q f loc_Exact) as [y e2] eqn:E2. apply shr24_any in E2 as [M2 E2]; [|lia].
  destruct q as [|k|k]; [|right|lia].
  { left. split; [reflexivity|]. rewrite M2. rewrite Z.div_0_l by (apply Z.pow_nonzero; lia). reflexivity. }
  cbn [Zdigits2] in M2, E2. set (dk := Z.pos (digits2_pos k)) in *. pose proof (digits_pos k) as (D0 & D1 & D2). fold dk in D0, D1, D2.
  (* digits of the rounded number *)
  assert (T : m < 2 ^ (f - e) /\ Z.pos k = 1 /\ f = -149 \/ 0 < m /\ let d := Zdigits2 m + e - f in 0 < d /\ 2 ^ (d - 1) <= Z.pos k <= 2 ^ d).
  { destruct m as [|m|m]; [left|clear Hm|lia].
    - rewrite Z.div_0_l in R by lia. split; [exact P|]. split; [lia|]. unfold f, fexp, emin in *. cbn [Zdigits2] in *. lia.
    - cbn [Zdigits2] in *. pose proof (digits_pos m) as (A0 & A1 & A2). set (dm := Z.pos (digits2_pos m)) in *.
      destruct (Z_le_gt_dec (dm + e - f) 0) as [L|L].
      + left. assert (2 ^ dm <= 2 ^ (f - e)) by (apply Z.pow_le_mono_r; lia). rewrite Z.div_small in R by lia.
        split; [lia|]. split; [lia|]. unfold f, fexp, emin in *. lia.
      + right. split; [lia|]. cbv zeta. split; [lia|].
        assert (2 ^ (dm + e - f - 1) * 2 ^ (f - e) = 2 ^ (dm - 1)) by (rewrite <- Z.pow_add_r by lia; f_equal; lia).
        assert (2 ^ (dm + e - f) * 2 ^ (f - e) = 2 ^ dm) by (rewrite <- Z.pow_add_r by lia; f_equal; lia).
        assert (2 ^ (dm + e - f - 1) <= Z.pos m / 2 ^ (f - e)) by (apply Z.div_le_lower_bound; nia).
        assert (Z.pos m / 2 ^ (f - e) < 2 ^ (dm + e - f)) by (apply Z.div_lt_upper_bound; nia). lia. }
  assert (U : fexp 24 128 (dk + f) = f \/ Z.pos k = 2 ^ 24 /\ dk = 25 /\ -149 <= f).
  { destruct T as [(_ & T & F)|(_ & T0 & T1)].
    - left. assert (dk = 1). { unfold dk. apply digits_eq. rewrite T. cbn. lia. } unfold fexp, emin. lia.
    - set (d := Zdigits2 m + e - f) in *. assert (Fd : f = Z.max (d + f - 24) (-149)) by (unfold d, f, fexp, emin in *; lia).
      destruct (Z.eq_dec (Z.pos k) (2 ^ d)) as [C|C].
      + assert (dk = d + 1). { unfold dk. apply digits_eq. rewrite C. replace (d + 1 - 1) with d by lia. split; [lia|]. apply Z.pow_lt_mono_r; lia. }
        destruct (Z.eq_dec d 24) as [C'|C']; [right; rewrite C, C'; repeat split; lia|]. left. unfold fexp, emin. lia.
      + assert (dk = d). { unfold dk. apply digits_eq. lia. } left. unfold fexp, emin. lia. }
  destruct U as [U|(U1 & U2 & U3)].
  - rewrite U, Z.sub_diag in M2, E2. cbn [Z.max] in M2, E2. rewrite Z.div_1_r in M2.
    exists k, f. split; [lia|]. split; [rewrite Z.sub_diag; lia|]. split; [unfold canonical_mantissa; apply Zeq_is_eq_bool; exact U|].
    rewrite M2, E2, Z.add_0_r. reflexivity.
  - rewrite U2 in M2, E2. assert (X : fexp 24 128 (25 + f) = f + 1) by (unfold fexp, emin; lia). rewrite X in M2, E2.
    replace (Z.max 0 (f + 1 - f)) with 1 in M2, E2 by lia. rewrite U1 in M2. change (2 ^ 24 / 2 ^ 1) with 8388608 in M2.
    exists 8388608%positive, (f + 1). split; [lia|]. split; [replace (f + 1 - f) with 1 by lia; rewrite U1; reflexivity|].
    split; [unfold canonical_mantissa; apply Zeq_is_eq_bool; change (Z.pos (digits2_pos 8388608)) with 24; unfold fexp, emin; lia|].
    rewrite M2, E2. reflexivity.
Qed.
Lemma round24_form s m e : exists m' e', binary_round 24 128 s m e = binary_round_aux 24 128 s (Z.pos m') e' loc_Exact
  /\ (dy (Z.pos m') e' == dy (Z.pos m) e)%Q /\ e' <= fexp 24 128 (Zdigits2 (Z.pos m') + e').
Proof.
  unfold binary_round, shl_align. set (f := fexp 24 128 (Z.pos (digits2_pos m) + e)). destruct (f - e) as [|d|d] eqn:E.
  - exists m, e. split; [reflexivity|]. split; [reflexivity|]. cbn [Zdigits2]. fold f. lia.
  - exists m, e. split; [reflexivity|]. split; [reflexivity|]. cbn [Zdigits2]. fold f. lia.
  - exists (shift_pos d m), f. split; [reflexivity|].
    assert (H : shift_pos d m = (m * Z.to_pos (2 ^ Z.pos d))%positive).
    { apply Pos2Z.inj. rewrite shift_pos_mul, Pos2Z.inj_mul, Z2Pos.id by (apply Z.pow_pos_nonneg; lia). reflexivity. }
    split.
    + rewrite H, Pos2Z.inj_mul, Z2Pos.id by (apply Z.pow_pos_nonneg; lia). rewrite dy_shift by lia. replace (f + Z.pos d) with e by lia. reflexivity.
    + cbn [Zdigits2]. rewrite H, digits_mul_pow by lia. replace (Z.pos (digits2_pos m) + Z.pos d + f) with (Z.pos (digits2_pos m) + e) by lia. fold f. lia.
Qed.
