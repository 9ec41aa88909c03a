(** Facts about the executable specification of IEEE 754 ([Coq.Floats.SpecFloat]) with 53 bits. *)
From Coq Require Import SpecFloat.
From Verif Require Import Base MReal.
Local Open Scope Z_scope.

Lemma digits_pos m : 0 < Z.pos (digits2_pos m) /\ 2 ^ (Z.pos (digits2_pos m) - 1) <= Z.pos m < 2 ^ Z.pos (digits2_pos m).
Proof.
  induction m as [m [IH0 IH] | m [IH0 IH] |]; cbn [digits2_pos]; [| | cbn; lia].
  all: rewrite Pos2Z.inj_succ; split; [lia|].
  all: replace (Z.succ (Z.pos (digits2_pos m)) - 1) with (Z.succ (Z.pos (digits2_pos m) - 1)) by lia.
  all: rewrite !Z.pow_succ_r by lia.
  - change (Z.pos m~1) with (2 * Z.pos m + 1). lia.
  - change (Z.pos m~0) with (2 * Z.pos m). lia.
Qed.

Lemma digits_eq m d : 2 ^ (d - 1) <= Z.pos m < 2 ^ d -> Z.pos (digits2_pos m) = d.
Proof.
  intros [Hl Hu]. pose proof (digits_pos m) as (D0 & Dl & Du).
  assert (0 < d). { destruct (Z_lt_le_dec 0 d); [assumption|]. destruct (Z.eq_dec d 0); [subst; cbn in Hu; lia|].
    rewrite (Z.pow_neg_r 2 d) in Hu by lia. lia. }
  destruct (Z.lt_trichotomy (Z.pos (digits2_pos m)) d) as [H0|[H0|H0]]; [|assumption|].
  - assert (2 ^ Z.pos (digits2_pos m) <= 2 ^ (d - 1)) by (apply Z.pow_le_mono_r; lia). lia.
  - assert (2 ^ d <= 2 ^ (Z.pos (digits2_pos m) - 1)) by (apply Z.pow_le_mono_r; lia). lia.
Qed.

Lemma digits_mul_pow m j : 0 <= j -> Z.pos (digits2_pos (m * Z.to_pos (2 ^ j))) = Z.pos (digits2_pos m) + j.
Proof.
  intro Hj. assert (0 < 2 ^ j) by (apply Z.pow_pos_nonneg; lia).
  apply digits_eq. rewrite Pos2Z.inj_mul, Z2Pos.id by assumption.
  pose proof (digits_pos m) as (D0 & D1 & D2).
  replace (Z.pos (digits2_pos m) + j - 1) with ((Z.pos (digits2_pos m) - 1) + j) by lia.
  rewrite !Z.pow_add_r by lia. nia.
Qed.

Fixpoint times {A} (n : nat) (f : A -> A) (x : A) : A := match n with O => x | S k => f (times k f x) end.

Lemma iter_pos_nat {A} (f : A -> A) p x : SpecFloat.iter_pos f p x = times (Pos.to_nat p) f x.
Proof.
  assert (HI: forall n m y, times (n + m) f y = times n f (times m f y)).
  { induction n; intros; cbn; [reflexivity | now rewrite IHn]. }
  assert (HS: forall n y, times n f (f y) = f (times n f y)).
  { induction n; intros; cbn; [reflexivity | now rewrite IHn]. }
  revert x; induction p; intro x; cbn [SpecFloat.iter_pos].
  - rewrite !IHp, Pos2Nat.inj_xI. replace (S (2 * Pos.to_nat p)) with (Pos.to_nat p + (Pos.to_nat p + 1))%nat by lia.
    rewrite !HI. reflexivity.
  - rewrite !IHp, Pos2Nat.inj_xO. replace (2 * Pos.to_nat p)%nat with (Pos.to_nat p + Pos.to_nat p)%nat by lia.
    rewrite !HI. reflexivity.
  - reflexivity.
Qed.

(** What is kept of [m] after dropping its [n] low bits. *)
Definition kept (m : Z) (n : nat) (x : shr_record) : Prop :=
  shr_m x = m / 2 ^ Z.of_nat n /\
  match n with
  | O => shr_r x = false /\ shr_s x = false
  | S n' => shr_r x = Z.odd (m / 2 ^ Z.of_nat n') /\ shr_s x = negb (m mod 2 ^ Z.of_nat n' =? 0)
  end.

Lemma shr_1_half m r s : 0 <= m ->
  shr_1 {| shr_m := m; shr_r := r; shr_s := s |} = {| shr_m := m / 2; shr_r := Z.odd m; shr_s := r || s |}.
Proof.
  intro Hm. destruct m as [|p|p]; [reflexivity | | lia].
  assert (HO: Z.odd (Z.pos p) = match p with xO _ => false | _ => true end) by (destruct p; reflexivity).
  destruct p; cbn [shr_1]; rewrite HO; f_equal.
  - change (Z.pos p~1) with (2 * Z.pos p + 1). lia.
  - change (Z.pos p~0) with (2 * Z.pos p). lia.
Qed.

Lemma shr_iter m n : 0 <= m ->
  kept m n (times n shr_1 {| shr_m := m; shr_r := false; shr_s := false |}).
Proof.
  intro Hm. induction n as [|n IH]; cbn [times].
  { split; cbn; [now rewrite Z.div_1_r | auto]. }
  destruct (times n shr_1 _) as [m' r s]. destruct IH as [IH1 IH2]; cbn [shr_m shr_r shr_s] in *; subst m'.
  assert (HP: 0 < 2 ^ Z.of_nat n) by (apply Z.pow_pos_nonneg; lia).
  rewrite shr_1_half by (apply Z.div_pos; lia).
  split; cbn [shr_m shr_r shr_s].
  { rewrite Z.div_div by lia. f_equal. rewrite Nat2Z.inj_succ, Z.pow_succ_r by lia. lia. }
  split; [reflexivity|].
  destruct n as [|n].
  { destruct IH2 as [-> ->]. cbn. now rewrite Z.mod_1_r. }
  destruct IH2 as [-> ->].
  rewrite Nat2Z.inj_succ, Z.pow_succ_r by lia. rewrite Z.mul_comm.
  set (P := 2 ^ Z.of_nat n) in *. assert (HP': 0 < P) by (apply Z.pow_pos_nonneg; lia).
  rewrite Z.rem_mul_r by lia.
  rewrite (Zmod_odd (m / P)).
  pose proof (Z.mod_pos_bound m P HP').
  destruct (Z.odd (m / P)); cbn [orb]; [symmetry; apply negb_true_iff, Z.eqb_neq; lia|].
  f_equal. destruct (m mod P =? 0) eqn:E1, (m mod P + P * 0 =? 0) eqn:E2; lia.
Qed.

(** Rounding the [n] low bits away. *)
Lemma round_kept m n x : 0 <= m -> kept m n x ->
  forall q, q = round_nearest_even (shr_m x) (loc_of_shr_record x) ->
  2 * Z.abs (q * 2 ^ Z.of_nat n - m) <= 2 ^ Z.of_nat n /\ (m mod 2 ^ Z.of_nat n = 0 -> q = m / 2 ^ Z.of_nat n) /\
  m / 2 ^ Z.of_nat n <= q <= m / 2 ^ Z.of_nat n + 1.
Proof.
  intros Hm [K1 K2] q. destruct x as [m' r s]; cbn [shr_m shr_r shr_s] in *; subst m'.
  destruct n as [|n].
  { destruct K2 as [-> ->]. intros ->; cbn [loc_of_shr_record round_nearest_even]. cbn [Z.of_nat].
    rewrite Z.pow_0_r, Z.div_1_r, Z.mul_1_r. lia. }
  destruct K2 as [-> ->].
  rewrite Nat2Z.inj_succ, Z.pow_succ_r by lia.
  set (P := 2 ^ Z.of_nat n) in *. assert (HP: 0 < P) by (apply Z.pow_pos_nonneg; lia).
  assert (HA: m / (2 * P) = (m / P) / 2) by (rewrite Z.div_div by lia; f_equal; lia).
  assert (HB: m / P = 2 * (m / P / 2) + (if Z.odd (m / P) then 1 else 0)) by (rewrite <- Zmod_odd; apply Z.div_mod; lia).
  assert (HC: m = P * (m / P) + m mod P) by (apply Z.div_mod; lia).
  pose proof (Z.mod_pos_bound m P HP) as HD.
  assert (HE: m mod (2 * P) = m mod P + P * ((m / P) mod 2)) by (rewrite Z.mul_comm; apply Z.rem_mul_r; lia).
  rewrite HA. rewrite Zmod_odd in HE. rewrite HE. clear HE HA.
  set (h := m / P / 2) in *. set (t := m mod P) in *. set (c := m / P) in *.
  destruct (Z.odd c); destruct (t =? 0) eqn:Et; cbn [loc_of_shr_record round_nearest_even negb]; intros Hq.
  - destruct (Z.even h); repeat split; intros; nia.
  - repeat split; intros; nia.
  - repeat split; intros; nia.
  - repeat split; intros; nia.
Qed.

Lemma shr_fexp_exact m e : 0 <= m ->
  forall x e', shr_fexp 53 1024 m e loc_Exact = (x, e') ->
  let n := Z.to_nat (fexp 53 1024 (Zdigits2 m + e) - e) in kept m n x /\ e' = e + Z.of_nat n.
Proof.
  intros Hm x e' H n. unfold shr_fexp, shr in H.
  destruct (fexp 53 1024 (Zdigits2 m + e) - e) as [|p|p] eqn:E.
  - injection H as <- <-. subst n; cbn. split; [|lia].
    split; cbn; [now rewrite Z.div_1_r | auto].
  - injection H as <- <-. subst n. rewrite iter_pos_nat. split; [|cbn; rewrite positive_nat_Z; lia].
    cbn [shr_record_of_loc]. change (Z.to_nat (Z.pos p)) with (Pos.to_nat p). now apply shr_iter.
  - injection H as <- <-. subst n; cbn. split; [|lia].
    split; cbn; [now rewrite Z.div_1_r | auto].
Qed.

(** A number in canonical form is not changed by rounding, however it is presented. *)
Lemma round_aux_canonical s k ek e :
  bounded 53 1024 k ek = true -> e <= ek ->
  binary_round_aux 53 1024 s (Z.pos k * 2 ^ (ek - e)) e loc_Exact = S754_finite s k ek.
Proof.
  intros HB He. unfold bounded, canonical_mantissa in HB. apply andb_true_iff in HB as [HC HL].
  apply Zeq_bool_eq in HC.
  assert (HP: 0 < 2 ^ (ek - e)) by (apply Z.pow_pos_nonneg; lia).
  assert (Hm: Z.pos k * 2 ^ (ek - e) = Z.pos (k * Z.to_pos (2 ^ (ek - e)))) by (rewrite Pos2Z.inj_mul, Z2Pos.id; auto).
  assert (HD: Zdigits2 (Z.pos k * 2 ^ (ek - e)) = Z.pos (digits2_pos k) + (ek - e))
    by (rewrite Hm; cbn [Zdigits2]; apply digits_mul_pow; lia).
  assert (H0: 0 <= Z.pos k * 2 ^ (ek - e)) by nia.
  unfold binary_round_aux.
  destruct (shr_fexp 53 1024 (Z.pos k * 2 ^ (ek - e)) e loc_Exact) as [x e1] eqn:E1.
  apply shr_fexp_exact in E1; [|assumption]. rewrite HD in E1.
  replace (Z.pos (digits2_pos k) + (ek - e) + e) with (Z.pos (digits2_pos k) + ek) in E1 by lia. rewrite HC in E1.
  destruct E1 as [K1 ->].
  destruct (round_kept _ _ _ H0 K1 _ eq_refl) as (_ & R & _). rewrite Z2Nat.id in R by lia.
  assert (HQ: round_nearest_even (shr_m x) (loc_of_shr_record x) = Z.pos k).
  { rewrite R by (apply Z.mod_mul; lia). apply Z.div_mul; lia. }
  rewrite HQ, Z2Nat.id by lia. replace (e + (ek - e)) with ek by lia.
  destruct (shr_fexp 53 1024 (Z.pos k) ek loc_Exact) as [y e2] eqn:E2.
  apply shr_fexp_exact in E2; [|lia]. cbn [Zdigits2] in E2. rewrite HC, Z.sub_diag in E2. cbn in E2.
  destruct E2 as [[K2 _] ->]. cbn [Z.of_nat] in K2. rewrite Z.div_1_r in K2. rewrite K2, Z.add_0_r, HL. reflexivity.
Qed.

Lemma shift_pos_mul d m : Z.pos (shift_pos d m) = Z.pos m * 2 ^ Z.pos d.
Proof. now rewrite shift_pos_correct, Z.pow_pos_fold, Z.mul_comm. Qed.

Lemma binary_round_canonical s m e k ek :
  bounded 53 1024 k ek = true ->
  (e <= ek -> Z.pos m = Z.pos k * 2 ^ (ek - e)) -> (ek < e -> Z.pos k = Z.pos m * 2 ^ (e - ek)) ->
  binary_round 53 1024 s m e = S754_finite s k ek.
Proof.
  intros HB H1 H2. pose proof HB as HB'. unfold bounded, canonical_mantissa in HB'.
  apply andb_true_iff in HB' as [HC HL]. apply Zeq_bool_eq in HC.
  unfold binary_round.
  assert (HF: fexp 53 1024 (Z.pos (digits2_pos m) + e) = ek).
  { rewrite <- HC. f_equal. destruct (Z_le_gt_dec e ek) as [L|L].
    - assert (m = k * Z.to_pos (2 ^ (ek - e)))%positive.
      { apply Pos2Z.inj. rewrite Pos2Z.inj_mul, Z2Pos.id by (apply Z.pow_pos_nonneg; lia). auto. }
      subst m. rewrite digits_mul_pow by lia. lia.
    - assert (k = m * Z.to_pos (2 ^ (e - ek)))%positive.
      { apply Pos2Z.inj. rewrite Pos2Z.inj_mul, Z2Pos.id by (apply Z.pow_pos_nonneg; lia). apply H2; lia. }
      subst k. rewrite digits_mul_pow by lia. lia. }
  rewrite HF. unfold shl_align.
  remember (ek - e) as x eqn:E. symmetry in E. destruct x as [|d|d].
  - assert (e = ek) by lia. subst e. rewrite H1 by lia. rewrite <- E. now apply round_aux_canonical.
  - rewrite H1 by lia. rewrite <- E. apply round_aux_canonical; [assumption | lia].
  - rewrite shift_pos_mul. replace (Z.pos d) with (e - ek) by lia. rewrite <- H2 by lia.
    rewrite <- (round_aux_canonical s k ek ek HB) by lia. now rewrite Z.sub_diag, Z.pow_0_r, Z.mul_1_r.
Qed.

Definition normal (k : positive) : Prop := 2 ^ 52 <= Z.pos k < 2 ^ 53.

Lemma normal_digits k : normal k -> Z.pos (digits2_pos k) = 53.
Proof. intros H. apply digits_eq. exact H. Qed.

Lemma bounded_normal k e : normal k -> -1074 <= e <= 971 -> bounded 53 1024 k e = true.
Proof.
  intros Hk He. unfold bounded, canonical_mantissa. rewrite (normal_digits k Hk).
  apply andb_true_iff; split; [apply Zeq_is_eq_bool; unfold fexp, emin; lia | apply Z.leb_le; lia].
Qed.

Lemma bounded_cases k e : bounded 53 1024 k e = true ->
  e <= 971 /\ (normal k /\ -1074 <= e \/ Z.pos k < 2 ^ 52 /\ e = -1074).
Proof.
  unfold bounded, canonical_mantissa. intros H. apply andb_true_iff in H as [HC HL].
  apply Zeq_bool_eq in HC. apply Z.leb_le in HL. unfold fexp, emin in HC.
  pose proof (digits_pos k) as (D0 & D1 & D2). split; [lia|].
  destruct (Z_le_gt_dec 53 (Z.pos (digits2_pos k))) as [L|L].
  - left. assert (Z.pos (digits2_pos k) = 53) as E by lia. rewrite E in *. split; [exact (conj D1 D2) | lia].
  - right. split; [|lia]. assert (2 ^ Z.pos (digits2_pos k) <= 2 ^ 52) by (apply Z.pow_le_mono_r; lia). lia.
Qed.

(** The normal form of a positive number of at most 53 bits. *)
Lemma normal_form n : 0 < n < 2 ^ 53 -> exists k j, normal k /\ 0 <= j <= 52 /\ Z.pos k = n * 2 ^ j.
Proof.
  intros [H0 H1]. destruct n as [|p|p]; try lia.
  pose proof (digits_pos p) as (D0 & D1 & D2). set (d := Z.pos (digits2_pos p)) in *.
  assert (d <= 53). { destruct (Z_le_gt_dec d 53); [lia|]. assert (2 ^ 53 <= 2 ^ (d - 1)) by (apply Z.pow_le_mono_r; lia). lia. }
  exists (p * Z.to_pos (2 ^ (53 - d)))%positive, (53 - d).
  assert (0 < 2 ^ (53 - d)) by (apply Z.pow_pos_nonneg; lia).
  unfold normal. rewrite Pos2Z.inj_mul, Z2Pos.id by assumption.
  assert (2 ^ 52 = 2 ^ (d - 1) * 2 ^ (53 - d)) by (rewrite <- Z.pow_add_r by lia; f_equal; lia).
  assert (2 ^ 53 = 2 ^ d * 2 ^ (53 - d)) by (rewrite <- Z.pow_add_r by lia; f_equal; lia).
  split; [nia | split; [lia | reflexivity]].
Qed.

Lemma f64_of_Z_sign z : z <> 0 -> f64_of_Z z = binary_round 53 1024 (z <? 0) (Z.to_pos (Z.abs z)) 0.
Proof. destruct z; [congruence | reflexivity | reflexivity]. Qed.

Lemma f64_of_small z : 0 < Z.abs z < 2 ^ 53 -> exists k j, f64_of_Z z = S754_finite (z <? 0) k (- j) /\
  normal k /\ 0 <= j <= 52 /\ Z.pos k = Z.abs z * 2 ^ j.
Proof.
  intros H. destruct (normal_form _ H) as (k & j & Hk & Hj & E). exists k, j.
  split; [|auto]. rewrite f64_of_Z_sign by lia. apply binary_round_canonical.
  - apply bounded_normal; [assumption | lia].
  - intros L. assert (j = 0) by lia. subst j. rewrite E, Z2Pos.id by lia. rewrite !Z.pow_0_r. lia.
  - intros L. rewrite E, Z2Pos.id by lia. do 2 f_equal. lia.
Qed.

(** An integer of more than 53 bits is rounded with relative error at most 2^-53. *)
Lemma f64_of_large z : 2 ^ 53 <= Z.abs z < 2 ^ 64 -> exists k e, f64_of_Z z = S754_finite (z <? 0) k e /\
  normal k /\ 0 < e <= 12 /\ Z.abs (Z.pos k * 2 ^ e - Z.abs z) * 2 ^ 53 <= Z.abs z /\
  (forall i, Z.abs z = i * 2 ^ e -> Z.pos k = i).
Proof.
  intros H. rewrite f64_of_Z_sign by lia. destruct (Z.abs z) as [|m|m] eqn:Em; try lia. clear Em.
  cbn [Z.to_pos]. set (s := z <? 0). clearbody s. clear z.
  pose proof (digits_pos m) as (D0 & D1 & D2). set (d := Z.pos (digits2_pos m)) in *.
  assert (Hd: 54 <= d <= 64).
  { split.
    - destruct (Z_le_gt_dec 54 d); [lia|]. assert (2 ^ d <= 2 ^ 53) by (apply Z.pow_le_mono_r; lia). lia.
    - destruct (Z_le_gt_dec d 64); [lia|]. assert (2 ^ 64 <= 2 ^ (d - 1)) by (apply Z.pow_le_mono_r; lia). lia. }
  unfold binary_round, shl_align. fold d.
  assert (HF: fexp 53 1024 (d + 0) = d - 53) by (unfold fexp, emin; lia).
  rewrite HF. destruct (d - 53 - 0) as [|x|x] eqn:E; try lia. clear x E.
  unfold binary_round_aux.
  destruct (shr_fexp 53 1024 (Z.pos m) 0 loc_Exact) as [x e1] eqn:E1.
  apply shr_fexp_exact in E1; [|lia]. cbn [Zdigits2] in E1. fold d in E1. rewrite HF in E1. destruct E1 as [K1 ->].
  set (n := Z.to_nat (d - 53 - 0)) in *. assert (Hn: Z.of_nat n = d - 53) by lia.
  destruct (round_kept _ _ _ (Pos2Z.is_nonneg m) K1 _ eq_refl) as (R1 & R2 & R3). rewrite Hn in *.
  set (q := round_nearest_even (shr_m x) (loc_of_shr_record x)) in *. clearbody q. clear K1 x.
  assert (HP: 0 < 2 ^ (d - 53)) by (apply Z.pow_pos_nonneg; lia).
  assert (HA: 2 ^ (d - 1) = 2 ^ 52 * 2 ^ (d - 53)) by (rewrite <- Z.pow_add_r by lia; f_equal; lia).
  assert (HB: 2 ^ d = 2 ^ 53 * 2 ^ (d - 53)) by (rewrite <- Z.pow_add_r by lia; f_equal; lia).
  assert (HC: 2 ^ 52 <= Z.pos m / 2 ^ (d - 53) < 2 ^ 53).
  { split; [apply Z.div_le_lower_bound; nia | apply Z.div_lt_upper_bound; nia]. }
  assert (HR: Z.abs (q * 2 ^ (d - 53) - Z.pos m) * 2 ^ 53 <= Z.pos m) by nia.
  assert (HQ: 2 ^ 52 <= q <= 2 ^ 53).
  { revert R3 HC. generalize (Z.pos m / 2 ^ (d - 53)). intros. lia. }
  clear R3 HC.
  destruct (shr_fexp 53 1024 q (0 + (d - 53)) loc_Exact) as [y e2] eqn:E2.
  apply shr_fexp_exact in E2; [|lia]. destruct q as [|k|k]; try lia. cbn [Zdigits2] in E2.
  destruct (Z.eq_dec (Z.pos k) (2 ^ 53)) as [C|C].
  - assert (Z.pos (digits2_pos k) = 54) as E by (apply digits_eq; rewrite C; cbn; lia).
    rewrite E in E2. replace (fexp 53 1024 (54 + (0 + (d - 53)))) with (d - 52) in E2 by (unfold fexp, emin; lia).
    replace (Z.to_nat (d - 52 - (0 + (d - 53)))) with 1%nat in E2 by lia.
    destruct E2 as [[K2 _] ->]. rewrite K2, C. change (2 ^ 53 / 2 ^ Z.of_nat 1) with 4503599627370496.
    replace (Zle_bool (0 + (d - 53) + Z.of_nat 1) (1024 - 53)) with true by (symmetry; apply Z.leb_le; lia).
    exists 4503599627370496%positive, (0 + (d - 53) + Z.of_nat 1).
    replace (0 + (d - 53) + Z.of_nat 1) with (Z.succ (d - 53)) by lia.
    rewrite Z.pow_succ_r by lia. split; [reflexivity|]. split; [unfold normal; lia|]. split; [lia|].
    split; [nia|]. intros i Hi. rewrite Hi in *.
    assert (i * (2 * 2 ^ (d - 53)) mod 2 ^ (d - 53) = 0) as M0 by (replace (i * (2 * 2 ^ (d - 53))) with (2 * i * 2 ^ (d - 53)) by ring; apply Z.mod_mul; lia).
    specialize (R2 M0). replace (i * (2 * 2 ^ (d - 53))) with (2 * i * 2 ^ (d - 53)) in R2 by ring. rewrite Z.div_mul in R2 by lia. lia.
  - assert (HN: normal k) by (unfold normal; lia). rewrite (normal_digits k HN) in E2.
    replace (fexp 53 1024 (53 + (0 + (d - 53)))) with (d - 53) in E2 by (unfold fexp, emin; lia).
    replace (Z.to_nat (d - 53 - (0 + (d - 53)))) with 0%nat in E2 by lia.
    destruct E2 as [[K2 _] ->]. cbn [Z.of_nat] in *. rewrite Z.div_1_r in K2. rewrite K2.
    replace (Zle_bool (0 + (d - 53) + 0) (1024 - 53)) with true by (symmetry; apply Z.leb_le; lia).
    exists k, (0 + (d - 53) + 0). replace (0 + (d - 53) + 0) with (d - 53) by lia.
    split; [reflexivity|]. split; [assumption|]. split; [lia|]. split; [assumption|].
    intros i Hi. rewrite Hi in *. rewrite R2 by (apply Z.mod_mul; lia). apply Z.div_mul; lia.
Qed.

(** Powers of two. *)
Definition pow2f (i : Z) : f64 := S754_finite false 4503599627370496 (i - 52).

Lemma f64_of_pow2 i : 0 <= i <= 10 -> f64_of_Z (2 ^ i) = pow2f i.
Proof.
  intros H. assert (HI: i = 0 \/ i = 1 \/ i = 2 \/ i = 3 \/ i = 4 \/ i = 5 \/ i = 6 \/ i = 7 \/ i = 8 \/ i = 9 \/ i = 10) by lia.
  repeat (destruct HI as [-> | HI]; [vm_compute; reflexivity|]). subst; vm_compute; reflexivity.
Qed.

(** Multiplication by a power of two, when the result is in canonical form. *)
Lemma fmul_pow2 s k e i : bounded 53 1024 k (e + i) = true ->
  fmul (S754_finite s k e) (pow2f i) = S754_finite s k (e + i).
Proof.
  intros HB. unfold fmul, pow2f, SFmul. rewrite xorb_false_r.
  replace (Z.pos (k * 4503599627370496)) with (Z.pos k * 2 ^ (e + i - (e + (i - 52)))).
  - apply round_aux_canonical; [assumption | lia].
  - replace (e + i - (e + (i - 52))) with 52 by lia. rewrite Pos2Z.inj_mul. reflexivity.
Qed.

Lemma pow2f_mul i j : -1022 <= i + j <= 1023 -> fmul (pow2f i) (pow2f j) = pow2f (i + j).
Proof.
  intros H. unfold pow2f at 1 3. replace (i + j - 52) with (i - 52 + j) by lia. apply fmul_pow2.
  apply bounded_normal; [unfold normal; lia | lia].
Qed.

Lemma powi_loop_pow2 p : forall a b, 0 < a -> 0 <= b -> a * Z.pos p + b <= 1023 ->
  powi_loop p (pow2f a) (pow2f b) = pow2f (a * Z.pos p + b).
Proof.
  induction p as [p IH|p IH|]; intros a b Ha Hb H; cbn [powi_loop].
  - rewrite Pos2Z.inj_xI in *. rewrite !pow2f_mul by nia. rewrite IH by nia. f_equal. lia.
  - rewrite Pos2Z.inj_xO in *. rewrite !pow2f_mul by nia. rewrite IH by nia. f_equal. lia.
  - rewrite pow2f_mul by lia. f_equal. lia.
Qed.

Lemma fdiv_one_pow2 i : 0 <= i <= 1021 -> fdiv (pow2f 0) (pow2f i) = pow2f (- i).
Proof.
  intros H. unfold fdiv, SFdiv, pow2f, SFdiv_core_binary.
  assert (ED: Zdigits2 4503599627370496 = 53) by reflexivity. rewrite ED.
  replace (Z.min (fexp 53 1024 (53 + (0 - 52) - (53 + (i - 52)))) (0 - 52 - (i - 52))) with (- i - 53) by (unfold fexp, emin; lia).
  replace (0 - 52 - (i - 52) - (- i - 53)) with 53 by lia.
  change (Z.div_eucl (Z.shiftl 4503599627370496 53) 4503599627370496) with (9007199254740992, 0).
  change (new_location 4503599627370496 0) with loc_Exact. cbn [xorb]. cbv iota.
  replace 9007199254740992 with (4503599627370496 * 2 ^ (- i - 52 - (- i - 53))).
  - apply round_aux_canonical; [apply bounded_normal; [unfold normal; lia | lia] | lia].
  - replace (- i - 52 - (- i - 53)) with 1 by lia. reflexivity.
Qed.

Lemma powi_two k : -1021 <= k <= 1023 -> powi (f64_of_Z 2) k = pow2f k.
Proof.
  intros H. change (f64_of_Z 2) with (pow2f 1). unfold powi. change (f64_of_Z 1) with (pow2f 0).
  destruct k as [|p|p]; [reflexivity | |].
  - rewrite powi_loop_pow2 by lia. f_equal; lia.
  - rewrite powi_loop_pow2 by lia. rewrite fdiv_one_pow2 by lia. f_equal; lia.
Qed.

(** Comparison with 2^-52. *)
Lemma above_epsilon k e : bounded 53 1024 k e = true ->
  f64_gt (S754_finite false k e) f64_epsilon = true -> normal k /\ -104 <= e /\ (e = -104 -> 2 ^ 52 < Z.pos k).
Proof.
  intros HB H. apply bounded_cases in HB as [HL HB]. unfold f64_gt, f64_epsilon, SFltb, SFcompare in H.
  destruct (Z.compare_spec (-104) e) as [C|C|C].
  - subst e. destruct (Pos.compare_cont Eq 4503599627370496 k) eqn:E; try discriminate.
    change (Z.compare 4503599627370496 (Z.pos k) = Lt) in E.
    split; [destruct HB as [[HB _]|[_ HB]]; [assumption | discriminate] | split; intros; [lia | exact E]].
  - split; [destruct HB as [[HB _]|HB]; [assumption | lia] | split; intros; lia].
  - discriminate.
Qed.

Lemma above_epsilon_intro k e : -104 < e \/ e = -104 /\ 2 ^ 52 < Z.pos k ->
  f64_gt (S754_finite false k e) f64_epsilon = true.
Proof.
  intros H. unfold f64_gt, f64_epsilon, SFltb, SFcompare. destruct (Z.compare_spec (-104) e) as [C|C|C]; [|reflexivity | lia].
  destruct H as [H|[_ H]]; [lia|]. change (Z.compare 4503599627370496 (Z.pos k) = Lt) in H.
  change (Pos.compare_cont Eq 4503599627370496 k) with (Z.compare 4503599627370496 (Z.pos k)). now rewrite H.
Qed.

(** *** Products outside the range of normal numbers *)

Lemma round_aux_overflow s k ek e : normal k -> 971 < ek -> e <= ek ->
  binary_round_aux 53 1024 s (Z.pos k * 2 ^ (ek - e)) e loc_Exact = S754_infinity s.
Proof.
  intros Hk HL He. pose proof (normal_digits k Hk) as Dk.
  assert (HC: fexp 53 1024 (Z.pos (digits2_pos k) + ek) = ek) by (rewrite Dk; unfold fexp, emin; lia).
  assert (HP: 0 < 2 ^ (ek - e)) by (apply Z.pow_pos_nonneg; lia).
  assert (Hm: Z.pos k * 2 ^ (ek - e) = Z.pos (k * Z.to_pos (2 ^ (ek - e)))) by (rewrite Pos2Z.inj_mul, Z2Pos.id; auto).
  assert (HD: Zdigits2 (Z.pos k * 2 ^ (ek - e)) = Z.pos (digits2_pos k) + (ek - e))
    by (rewrite Hm; cbn [Zdigits2]; apply digits_mul_pow; lia).
  assert (H0: 0 <= Z.pos k * 2 ^ (ek - e)) by nia.
  unfold binary_round_aux.
  destruct (shr_fexp 53 1024 (Z.pos k * 2 ^ (ek - e)) e loc_Exact) as [x e1] eqn:E1.
  apply shr_fexp_exact in E1; [|assumption]. rewrite HD in E1.
  replace (Z.pos (digits2_pos k) + (ek - e) + e) with (Z.pos (digits2_pos k) + ek) in E1 by lia. rewrite HC in E1.
  destruct E1 as [K1 ->].
  destruct (round_kept _ _ _ H0 K1 _ eq_refl) as (_ & R & _). rewrite Z2Nat.id in R by lia.
  assert (HQ: round_nearest_even (shr_m x) (loc_of_shr_record x) = Z.pos k).
  { rewrite R by (apply Z.mod_mul; lia). apply Z.div_mul; lia. }
  rewrite HQ, Z2Nat.id by lia. replace (e + (ek - e)) with ek by lia.
  destruct (shr_fexp 53 1024 (Z.pos k) ek loc_Exact) as [y e2] eqn:E2.
  apply shr_fexp_exact in E2; [|lia]. cbn [Zdigits2] in E2. rewrite HC, Z.sub_diag in E2. cbn in E2.
  destruct E2 as [[K2 _] ->]. cbn [Z.of_nat] in K2. rewrite Z.div_1_r in K2. rewrite K2, Z.add_0_r.
  replace (ek <=? 1024 - 53) with false by (symmetry; apply Z.leb_gt; lia). reflexivity.
Qed.

(** [k0 2^e0] is [k 2^e] with a normal [k]. *)
Lemma fmul_pow2_from s k0 e0 k e i : normal k -> e <= e0 -> Z.pos k = Z.pos k0 * 2 ^ (e0 - e) -> -1074 <= e + i ->
  fmul (S754_finite s k0 e0) (pow2f i) = if e + i <=? 971 then S754_finite s k (e + i) else S754_infinity s.
Proof.
  intros Hk He Ek L. unfold fmul, pow2f, SFmul. rewrite xorb_false_r.
  assert (H52 : e0 - e <= 52).
  { destruct (Z_le_gt_dec (e0 - e) 52); [assumption|]. assert (2 ^ 53 <= 2 ^ (e0 - e)) by (apply Z.pow_le_mono_r; lia).
    unfold normal in Hk. change (2 ^ 53) with 9007199254740992 in *. nia. }
  replace (Z.pos (k0 * 4503599627370496)) with (Z.pos k * 2 ^ (e + i - (e0 + (i - 52)))).
  - destruct (Z.leb_spec (e + i) 971).
    + apply round_aux_canonical; [apply bounded_normal; [exact Hk | lia] | lia].
    + apply round_aux_overflow; [exact Hk | lia | lia].
  - rewrite Ek, Pos2Z.inj_mul. rewrite <- Z.mul_assoc, <- Z.pow_add_r by lia.
    replace (e0 - e + (e + i - (e0 + (i - 52)))) with 52 by lia. reflexivity.
Qed.

(** Very small products. *)
Lemma fmul_tiny s k1 e1 k2 e2 : Z.pos k1 < 2 ^ 53 -> Z.pos k2 < 2 ^ 53 -> e1 + e2 <= -300 ->
  fmul (S754_finite s k1 e1) (S754_finite false k2 e2) = S754_zero s
  \/ exists k e, fmul (S754_finite s k1 e1) (S754_finite false k2 e2) = S754_finite s k e /\ Z.pos k < 2 ^ 54 /\ e <= -200.
Proof.
  intros H1 H2 He. unfold fmul, SFmul. rewrite xorb_false_r. set (m := (k1 * k2)%positive). set (e := e1 + e2) in *.
  assert (Hm : Z.pos m < 2 ^ 106) by (unfold m; rewrite Pos2Z.inj_mul; change (2 ^ 106) with (2 ^ 53 * 2 ^ 53); nia).
  clearbody m e. clear k1 e1 k2 e2 H1 H2.
  pose proof (digits_pos m) as (D0 & Dl & Du). set (d := Z.pos (digits2_pos m)) in *.
  assert (Hd : d <= 106).
  { destruct (Z_le_gt_dec d 106); [assumption|]. assert (2 ^ 106 <= 2 ^ (d - 1)) by (apply Z.pow_le_mono_r; lia). lia. }
  unfold binary_round_aux.
  destruct (shr_fexp 53 1024 (Z.pos m) e loc_Exact) as [x e'] eqn:E1.
  apply shr_fexp_exact in E1; [|lia]. cbn [Zdigits2] in E1. fold d in E1. destruct E1 as [K1 Ee].
  set (n := Z.to_nat (fexp 53 1024 (d + e) - e)) in *.
  assert (Hn : d - 53 <= Z.of_nat n /\ e + Z.of_nat n <= -247 /\ -1074 <= e + Z.of_nat n).
  { unfold n. unfold fexp, emin. split; [|split]; lia. }
  destruct (round_kept (Z.pos m) n x ltac:(lia) K1 _ eq_refl) as (_ & _ & R).
  set (q := round_nearest_even (shr_m x) (loc_of_shr_record x)) in *.
  assert (HQ : 0 <= Z.pos m / 2 ^ Z.of_nat n < 2 ^ 53).
  { split; [apply Z.div_pos; [lia | apply Z.pow_pos_nonneg; lia]|]. apply Z.div_lt_upper_bound; [apply Z.pow_pos_nonneg; lia|].
    rewrite <- Z.pow_add_r by lia. eapply Z.lt_le_trans; [exact Du|]. apply Z.pow_le_mono_r; lia. }
  assert (Hq : 0 <= q <= 2 ^ 53) by lia. clear R HQ K1. clearbody q.
  destruct (shr_fexp 53 1024 q e' loc_Exact) as [y e2] eqn:E2.
  apply shr_fexp_exact in E2; [|lia]. destruct E2 as [[K2 _] E2].
  set (n2 := Z.to_nat (fexp 53 1024 (Zdigits2 q + e') - e')) in *.
  assert (Dq : Zdigits2 q <= 54).
  { destruct q as [|p|p]; [cbn; lia | | lia]. cbn [Zdigits2]. pose proof (digits_pos p) as (_ & Dp & _).
    destruct (Z_le_gt_dec (Z.pos (digits2_pos p)) 54); [assumption|].
    assert (2 ^ 54 <= 2 ^ (Z.pos (digits2_pos p) - 1)) by (apply Z.pow_le_mono_r; lia). change (2 ^ 54) with (2 * 2 ^ 53) in *. lia. }
  assert (Hn2 : Z.of_nat n2 <= 1) by (unfold n2, fexp, emin; lia).
  assert (Hy : 0 <= shr_m y <= 2 ^ 53).
  { rewrite K2. split; [apply Z.div_pos; [lia | apply Z.pow_pos_nonneg; lia]|].
    eapply Z.le_trans; [|apply Hq]. apply Z.div_le_upper_bound; [apply Z.pow_pos_nonneg; lia|].
    assert (1 <= 2 ^ Z.of_nat n2) by (assert (0 < 2 ^ Z.of_nat n2) by (apply Z.pow_pos_nonneg; lia); lia). nia. }
  destruct (shr_m y) as [|p|p]; [left; reflexivity | right | lia].
  exists p, e2. replace (e2 <=? 1024 - 53) with true by (symmetry; apply Z.leb_le; lia).
  split; [reflexivity|]. change (2 ^ 54) with (2 * 2 ^ 53). lia.
Qed.

(** Powers of two of any size. *)
Definition pow2x (j : Z) : f64 := if j <=? 1023 then pow2f j else S754_infinity false.

Lemma pow2x_mul i j : 0 <= i -> 0 <= j -> fmul (pow2x i) (pow2x j) = pow2x (i + j).
Proof.
  intros Hi Hj. unfold pow2x. destruct (Z.leb_spec i 1023) as [A|A], (Z.leb_spec j 1023) as [B|B]; destruct (Z.leb_spec (i + j) 1023) as [C|C]; try lia; try reflexivity.
  - apply pow2f_mul; lia.
  - unfold pow2f at 1. rewrite (fmul_pow2_from false _ (i - 52) 4503599627370496 (i - 52) j); [|unfold normal; lia | lia | rewrite Z.sub_diag; reflexivity | lia].
    replace (i - 52 + j <=? 971) with false by (symmetry; apply Z.leb_gt; lia). reflexivity.
Qed.

Lemma powi_loop_pow2x p : forall a b, 0 <= a -> 0 <= b -> powi_loop p (pow2x a) (pow2x b) = pow2x (a * Z.pos p + b).
Proof.
  induction p as [p IH|p IH|]; intros a b Ha Hb; cbn [powi_loop].
  - rewrite Pos2Z.inj_xI in *. rewrite !pow2x_mul by lia. rewrite IH by lia. f_equal. lia.
  - rewrite Pos2Z.inj_xO in *. rewrite !pow2x_mul by lia. rewrite IH by lia. f_equal. lia.
  - rewrite pow2x_mul by lia. f_equal. lia.
Qed.

Lemma powi_two_large k : 1023 < k -> powi (f64_of_Z 2) k = S754_infinity false.
Proof.
  intros H. change (f64_of_Z 2) with (pow2x 1). unfold powi. change (f64_of_Z 1) with (pow2x 0).
  destruct k as [|p|p]; [lia | | lia]. rewrite powi_loop_pow2x by lia. unfold pow2x.
  replace (1 * Z.pos p + 0 <=? 1023) with false by (symmetry; apply Z.leb_gt; lia). reflexivity.
Qed.

Lemma powi_two_small k : k < -1023 -> powi (f64_of_Z 2) k = S754_zero false.
Proof.
  intros H. change (f64_of_Z 2) with (pow2x 1). unfold powi. change (f64_of_Z 1) with (pow2x 0).
  destruct k as [|p|p]; [lia | lia |]. rewrite powi_loop_pow2x by lia. unfold pow2x at 2.
  replace (1 * Z.pos p + 0 <=? 1023) with false by (symmetry; apply Z.leb_gt; lia). reflexivity.
Qed.

(** 2^-1022 is the least normal number, 2^-1023 is not normal. *)
Lemma powi_two_1022 : powi (f64_of_Z 2) (-1022) = pow2f (-1022).
Proof. vm_compute. reflexivity. Qed.
Lemma powi_two_1023 : powi (f64_of_Z 2) (-1023) = S754_finite false 2251799813685248 (-1074).
Proof. vm_compute. reflexivity. Qed.

(** Multiplying by [powi 2 i] an [k0 2^e0] which is [k 2^e] with a normal [k]. *)
Lemma fmul_powi k0 e0 k e i : normal k -> e <= e0 -> Z.pos k = Z.pos k0 * 2 ^ (e0 - e) -> bounded 53 1024 k0 e0 = true ->
  (-1023 <= i <= 1023 /\ -300 <= e + i <= 971 /\ fmul (S754_finite false k0 e0) (powi (f64_of_Z 2) i) = S754_finite false k (e + i))
  \/ (971 < e + i \/ 1023 < i) /\ fmul (S754_finite false k0 e0) (powi (f64_of_Z 2) i) = S754_infinity false
  \/ (e + i < -300 \/ i < -1023) /\ (fmul (S754_finite false k0 e0) (powi (f64_of_Z 2) i) = S754_zero false
      \/ exists k' e', fmul (S754_finite false k0 e0) (powi (f64_of_Z 2) i) = S754_finite false k' e' /\ Z.pos k' < 2 ^ 54 /\ e' <= -200).
Proof.
  intros Hk He Ek HB. pose proof (bounded_cases _ _ HB) as [HL HC].
  assert (K0 : Z.pos k0 < 2 ^ 53) by (unfold normal in HC; change (2 ^ 53) with (2 * 2 ^ 52) in *; lia).
  assert (H52 : e0 - e <= 52).
  { destruct (Z_le_gt_dec (e0 - e) 52); [assumption|]. assert (2 ^ 53 <= 2 ^ (e0 - e)) by (apply Z.pow_le_mono_r; lia).
    unfold normal in Hk. change (2 ^ 53) with 9007199254740992 in *. nia. }
  destruct (Z_lt_le_dec 1023 i) as [I1|I1].
  { right. left. split; [lia|]. rewrite powi_two_large by lia. reflexivity. }
  destruct (Z_lt_le_dec i (-1023)) as [I2|I2].
  { right. right. split; [lia|]. left. rewrite powi_two_small by lia. reflexivity. }
  destruct (Z.eq_dec i (-1023)) as [->|I3].
  { rewrite powi_two_1023. destruct (Z_lt_le_dec (e + -1023) (-300)) as [L|L].
    - right. right. split; [lia|]. destruct (fmul_tiny false k0 e0 2251799813685248 (-1074)) as [T|T]; [assumption | reflexivity | lia | left; exact T | right; exact T].
    - left. split; [lia|]. split; [lia|]. unfold fmul, SFmul. cbn [xorb].
      replace (Z.pos (k0 * 2251799813685248)) with (Z.pos k * 2 ^ (e + -1023 - (e0 + -1074))).
      + apply round_aux_canonical; [apply bounded_normal; [exact Hk | lia]|].
        destruct HC as [[HC _]|[_ HC]]; [|lia]. assert (e0 = e); [|lia].
        destruct (Z.eq_dec e0 e) as [|Ne]; [assumption|]. assert (2 ^ 1 <= 2 ^ (e0 - e)) by (apply Z.pow_le_mono_r; lia). unfold normal in *. change (2 ^ 53) with (2 ^ 1 * 2 ^ 52) in *. nia.
      + assert (e0 - e <= 51).
        { destruct HC as [[HC _]|[_ HC]]; [|lia].
          destruct (Z_le_gt_dec (e0 - e) 51); [assumption|]. assert (2 ^ 52 <= 2 ^ (e0 - e)) by (apply Z.pow_le_mono_r; lia). unfold normal in *. change (2 ^ 53) with (2 * 2 ^ 52) in *. nia. }
        rewrite Ek, Pos2Z.inj_mul. rewrite <- Z.mul_assoc, <- Z.pow_add_r by lia.
        replace (e0 - e + (e + -1023 - (e0 + -1074))) with 51 by lia. reflexivity. }
  assert (P : powi (f64_of_Z 2) i = pow2f i).
  { destruct (Z.eq_dec i (-1022)) as [->|]; [apply powi_two_1022 | apply powi_two; lia]. }
  rewrite P. destruct (Z_lt_le_dec (e + i) (-300)) as [L|L].
  - right. right. split; [lia|]. destruct (fmul_tiny false k0 e0 4503599627370496 (i - 52)) as [T|T]; [assumption | reflexivity | lia | left; exact T | right; exact T].
  - rewrite (fmul_pow2_from false k0 e0 k e i Hk He Ek ltac:(lia)). destruct (Z.leb_spec (e + i) 971).
    + left. repeat split; lia.
    + right. left. split; [lia | reflexivity].
Qed.
