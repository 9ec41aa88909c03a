(** Proofs about REAL in character form: integers below 2^53. *)
From Coq Require Import SpecFloat QArith Qpower Qabs.
From Verif Require Import Base MHeader SHeader PArith MInt SInt PInt MOid SOid POid MText SText PText MReal PFloat SReal PReal.
Local Open Scope Z_scope.

(** ** Integers as floating-point numbers *)

Lemma int_form n : 0 < Z.abs n < 2 ^ 53 -> exists k j, f64_of_Z n = S754_finite (n <? 0) k (- j) /\
  normal k /\ 0 <= j <= 52 /\ Z.pos k = Z.abs n * 2 ^ j.
Proof. apply f64_of_small. Qed.

Lemma int_unique n s k e : 0 < Z.abs n < 2 ^ 53 -> s = (n <? 0) -> normal k -> e <= 0 -> Z.pos k = Z.abs n * 2 ^ (- e) ->
  S754_finite s k e = f64_of_Z n.
Proof.
  intros H -> Hk He E. destruct (int_form n H) as (k' & j & -> & Hk' & Hj & E').
  assert (J: - e = j).
  { unfold normal in *. destruct (Z.lt_trichotomy (- e) j) as [L|[L|L]]; [|exact L|]; exfalso.
    - assert (2 ^ j = 2 ^ (- e) * 2 ^ (j - - e)) by (rewrite <- Z.pow_add_r by lia; f_equal; lia).
      assert (2 ^ 1 <= 2 ^ (j - - e)) by (apply Z.pow_le_mono_r; lia). change (2 ^ 53) with (2 * 2 ^ 52) in *. nia.
    - assert (2 ^ (- e) = 2 ^ j * 2 ^ (- e - j)) by (rewrite <- Z.pow_add_r by lia; f_equal; lia).
      assert (2 ^ 1 <= 2 ^ (- e - j)) by (apply Z.pow_le_mono_r; lia). change (2 ^ 53) with (2 * 2 ^ 52) in *. nia. }
  rewrite <- J. rewrite Z.opp_involutive. rewrite <- J, <- E in E'. injection E' as ->. reflexivity.
Qed.

Lemma mul_sign a b : a <> 0 -> b <> 0 -> xorb (a <? 0) (b <? 0) = (a * b <? 0).
Proof. intros A B. destruct (Z.ltb_spec a 0), (Z.ltb_spec b 0), (Z.ltb_spec (a * b) 0); try reflexivity; exfalso; nia. Qed.

Lemma fmul_int a b : a <> 0 -> b <> 0 -> Z.abs (a * b) < 2 ^ 53 -> fmul (f64_of_Z a) (f64_of_Z b) = f64_of_Z (a * b).
Proof.
  intros A B H. rewrite Z.abs_mul in H.
  destruct (int_form a) as (k1 & j1 & -> & N1 & J1 & E1); [nia|].
  destruct (int_form b) as (k2 & j2 & -> & N2 & J2 & E2); [nia|].
  destruct (normal_form (Z.abs (a * b))) as (k & j & N & J & E); [rewrite Z.abs_mul; nia|].
  unfold fmul, SFmul. rewrite mul_sign by assumption.
  assert (Hj: j <= j1 + j2).
  { destruct (Z_le_gt_dec j (j1 + j2)); [assumption|]. exfalso. unfold normal in *.
    assert (2 ^ (j1 + j2 + 1) <= 2 ^ j) by (apply Z.pow_le_mono_r; lia). rewrite !Z.pow_add_r in H0 by lia.
    assert (2 ^ 52 * 2 ^ 52 <= Z.abs (a * b) * (2 ^ j1 * 2 ^ j2)).
    { rewrite Z.abs_mul. replace (Z.abs a * Z.abs b * (2 ^ j1 * 2 ^ j2)) with (Z.pos k1 * Z.pos k2) by (rewrite E1, E2; ring).
      apply Z.mul_le_mono_nonneg; lia. }
    assert (Z.abs (a * b) * (2 ^ j1 * 2 ^ j2 * 2 ^ 1) <= Z.abs (a * b) * 2 ^ j) by (apply Z.mul_le_mono_nonneg_l; lia).
    change (2 ^ 52 * 2 ^ 52) with (2 ^ 53 * 2 ^ 51) in *. change (2 ^ 1) with 2 in *. change (2 ^ 53) with 9007199254740992 in *. change (2 ^ 51) with 2251799813685248 in *. lia. }
  replace (Z.pos (k1 * k2)) with (Z.pos k * 2 ^ (- j - (- j1 + - j2))).
  2:{ rewrite Pos2Z.inj_mul, E, E1, E2, Z.abs_mul. replace (- j - (- j1 + - j2)) with (j1 + j2 - j) by lia.
      replace (Z.abs a * 2 ^ j1 * (Z.abs b * 2 ^ j2)) with (Z.abs a * Z.abs b * (2 ^ j1 * 2 ^ j2)) by ring.
      rewrite <- (Z.pow_add_r 2 j1 j2) by lia. rewrite <- Z.mul_assoc, <- (Z.pow_add_r 2 j) by lia. do 2 f_equal. lia. }
  rewrite round_aux_canonical; [|apply bounded_normal; [exact N | lia] | lia].
  apply int_unique; [rewrite Z.abs_mul; nia | reflexivity | exact N | lia | rewrite Z.opp_involutive; exact E].
Qed.

Lemma fdiv_int a b : a <> 0 -> b <> 0 -> Z.abs (a * b) < 2 ^ 53 -> fdiv (f64_of_Z (a * b)) (f64_of_Z b) = f64_of_Z a.
Proof.
  intros A B H. rewrite Z.abs_mul in H.
  destruct (int_form (a * b)) as (k1 & j1 & -> & N1 & J1 & E1); [rewrite Z.abs_mul; nia|].
  destruct (int_form b) as (k2 & j2 & -> & N2 & J2 & E2); [nia|].
  destruct (normal_form (Z.abs a)) as (k & j & N & J & E); [nia|].
  unfold fdiv, SFdiv. replace (xorb (a * b <? 0) (b <? 0)) with (a <? 0).
  2:{ rewrite <- mul_sign by assumption. rewrite xorb_assoc, xorb_nilpotent, xorb_false_r. reflexivity. }
  unfold SFdiv_core_binary. cbn [Zdigits2]. rewrite !normal_digits by assumption.
  replace (Z.min (fexp 53 1024 (53 + - j1 - (53 + - j2))) (- j1 - - j2)) with (j2 - j1 - 53) by (unfold fexp, emin; lia).
  replace (- j1 - - j2 - (j2 - j1 - 53)) with 53 by lia. rewrite Z.shiftl_mul_pow2 by lia.
  assert (Q: Z.pos k1 * 2 ^ 53 = Z.pos k2 * (Z.abs a * 2 ^ (j1 + 53 - j2))).
  { rewrite E1, E2, Z.abs_mul. replace (2 ^ j1) with (2 ^ j2 * 2 ^ (j1 + 53 - j2) / 2 ^ 53).
    2:{ rewrite <- Z.pow_add_r by lia. replace (j2 + (j1 + 53 - j2)) with (j1 + 53) by lia. rewrite Z.pow_add_r by lia. apply Z.div_mul. lia. }
    rewrite <- Z.pow_add_r by lia. replace (j2 + (j1 + 53 - j2)) with (j1 + 53) by lia. rewrite (Z.pow_add_r 2 j1 53) by lia. rewrite Z.div_mul by lia.
    replace (Z.abs a * Z.abs b * 2 ^ j1 * 2 ^ 53) with (Z.abs a * Z.abs b * 2 ^ (j1 + 53)) by (rewrite Z.pow_add_r by lia; ring).
    replace (j1 + 53) with (j2 + (j1 + 53 - j2)) at 1 by lia. rewrite Z.pow_add_r by lia. ring. }
  assert (DE: Z.div_eucl (Z.pos k1 * 2 ^ 53) (Z.pos k2) = (Z.abs a * 2 ^ (j1 + 53 - j2), 0)).
  { rewrite Q. pose proof (Z.div_mul (Z.abs a * 2 ^ (j1 + 53 - j2)) (Z.pos k2) ltac:(lia)) as D.
    pose proof (Z.mod_mul (Z.abs a * 2 ^ (j1 + 53 - j2)) (Z.pos k2) ltac:(lia)) as M. rewrite Z.mul_comm in D, M.
    unfold Z.div in D. unfold Z.modulo in M. destruct (Z.div_eucl _ _). subst. reflexivity. }
  rewrite DE. cbv iota. replace (new_location (Z.pos k2) 0) with loc_Exact.
  2:{ unfold new_location, new_location_even, new_location_odd. destruct (Z.even (Z.pos k2)); reflexivity. }
  assert (Hj: j <= j1 + 53 - j2).
  { destruct (Z_le_gt_dec j (j1 + 53 - j2)); [assumption|]. exfalso. unfold normal in *.
    assert (P: 2 ^ (j1 + 53 - j2 + 1) <= 2 ^ j) by (apply Z.pow_le_mono_r; lia). rewrite (Z.pow_add_r 2 _ 1) in P by lia. change (2 ^ 1) with 2 in P.
    set (y := 2 ^ (j1 + 53 - j2)) in *. assert (0 < y) by (apply Z.pow_pos_nonneg; lia).
    assert (Z.abs a * y * 2 <= Z.pos k) by (rewrite E; nia).
    assert (Z.abs a * y < 2 ^ 52) by (change (2 ^ 53) with (2 * 2 ^ 52) in *; lia).
    assert (Z.pos k2 * (Z.abs a * y) <= Z.pos k2 * 2 ^ 52) by (apply Z.mul_le_mono_nonneg_l; lia).
    change (2 ^ 53) with 9007199254740992 in *. change (2 ^ 52) with 4503599627370496 in *. lia. }
  replace (Z.abs a * 2 ^ (j1 + 53 - j2)) with (Z.pos k * 2 ^ (- j - (j2 - j1 - 53))).
  2:{ rewrite E. rewrite <- Z.mul_assoc, <- Z.pow_add_r by lia. do 2 f_equal. lia. }
  rewrite round_aux_canonical; [|apply bounded_normal; [exact N | lia] | lia].
  apply int_unique; [nia | reflexivity | exact N | lia | rewrite Z.opp_involutive; exact E].
Qed.

Lemma has_fract_int n : Z.abs n < 2 ^ 53 -> has_fract (f64_of_Z n) = false.
Proof.
  intros H. destruct (Z.eq_dec n 0) as [->|Ne]; [reflexivity|].
  destruct (int_form n) as (k & j & -> & N & J & E); [lia|]. unfold has_fract. destruct (- j) as [|d|d] eqn:D; [reflexivity | reflexivity|].
  replace (Z.pos d) with j by lia. rewrite E, Z.mod_mul by (apply Z.pow_nonzero; lia). reflexivity.
Qed.

Lemma f64_trunc_int n : Z.abs n < 2 ^ 53 -> f64_trunc (f64_of_Z n) = n.
Proof.
  intros H. destruct (Z.eq_dec n 0) as [->|Ne]; [reflexivity|].
  destruct (int_form n) as (k & j & -> & N & J & E); [lia|]. unfold f64_trunc.
  replace (match - j with Z.neg d => Z.pos k / 2 ^ Z.pos d | _ => Z.pos k * 2 ^ (- j) end) with (Z.abs n).
  - unfold cond_Zopp. destruct (Z.ltb_spec n 0); lia.
  - destruct (- j) as [|d|d] eqn:D.
    + assert (j = 0) by lia. subst j. rewrite E. rewrite Z.pow_0_r. lia.
    + lia.
    + replace (Z.pos d) with j by lia. rewrite E, Z.div_mul by (apply Z.pow_nonzero; lia). reflexivity.
Qed.

Lemma is_tenfold_int n : 0 < Z.abs n < 2 ^ 53 -> is_tenfold (f64_of_Z n) = (n mod 10 =? 0).
Proof.
  intros H. unfold is_tenfold. rewrite f64_trunc_int by lia.
  destruct (int_form n H) as (k & j & -> & N & J & E). cbn [SFabs]. rewrite above_epsilon_intro by lia. reflexivity.
Qed.

Lemma f64_value_int n : Z.abs n < 2 ^ 53 -> exists q, f64_value (f64_of_Z n) = Some q /\ (q == inject_Z n)%Q.
Proof.
  intros H. destruct (Z.eq_dec n 0) as [->|Ne]; [exists 0%Q; split; reflexivity|].
  destruct (int_form n) as (k & j & -> & N & J & E); [lia|]. eexists. split; [reflexivity|].
  change (dy (if n <? 0 then Z.neg k else Z.pos k) (- j) == inject_Z n)%Q.
  replace (if n <? 0 then Z.neg k else Z.pos k) with (n * 2 ^ j).
  2:{ destruct (Z.ltb_spec n 0); [change (Z.neg k) with (- Z.pos k)|]; rewrite E; nia. }
  rewrite dy_shift by lia. replace (- j + j) with 0 by lia. unfold dy. ring.
Qed.

Lemma int_finite n : 0 < Z.abs n < 2 ^ 53 -> exists s k e, f64_of_Z n = S754_finite s k e.
Proof. intros H. destruct (int_form n H) as (k & j & -> & _). eauto. Qed.

(** ** [Real::new] of an integer *)

Lemma normalize_int fuel : forall n e, 0 < Z.abs n < 2 ^ 53 -> Z.abs n < 10 ^ Z.of_nat fuel -> -1000 <= e -> e + Z.of_nat fuel <= 1000 ->
  exists m k, n = m * 10 ^ k /\ 0 <= k < Z.of_nat fuel /\ m mod 10 <> 0 /\ normalize_loop fuel (f64_of_Z n) e = Ok (f64_of_Z m, e + k).
Proof.
  induction fuel as [|fuel IH]; intros n e H L He Hf; [cbn in L; lia|].
  cbn [normalize_loop]. rewrite is_tenfold_int by exact H. destruct (Z.eqb_spec (n mod 10) 0) as [T|T].
  - assert (En: n = n / 10 * 10) by (pose proof (Z.div_mod n 10); lia).
    replace (Z.of_nat (S fuel)) with (Z.of_nat fuel + 1) in * by lia. rewrite Z.pow_add_r in L by lia. change (10 ^ 1) with 10 in L.
    rewrite as_i32_ok by (unfold i32_min, i32_max; lia). cbn [bind].
    assert (D: fdiv (f64_of_Z n) (f64_of_Z 10) = f64_of_Z (n / 10)).
    { pose proof (fdiv_int (n / 10) 10 ltac:(lia) ltac:(lia) ltac:(lia)) as D. rewrite <- En in D. exact D. }
    rewrite D.
    destruct (IH (n / 10) (e + 1)) as (m & k & E & Hk & Hm & R); [lia | lia | lia | lia|].
    exists m, (k + 1). split; [|split; [lia|split; [exact Hm|rewrite R; do 2 f_equal; lia]]].
    rewrite Z.pow_add_r by lia. change (10 ^ 1) with 10. lia.
  - exists n, 0. rewrite Z.pow_0_r, Z.add_0_r. repeat split; try lia.
Qed.

Lemma new_loop_stop fuel f e : fuel <> O -> has_fract f = false -> new_loop fuel f e = Ok (f, e).
Proof. intros F H. destruct fuel; [congruence|]. cbn [new_loop]. rewrite H. reflexivity. Qed.

Lemma real_new_int n : 0 < Z.abs n < 2 ^ 53 -> exists m k, n = m * 10 ^ k /\ 0 <= k <= 15 /\ 0 < Z.abs m < 2 ^ 53 /\
  real_new (f64_of_Z n) = Ok (RBinary (f64_of_Z m) 10 k 10).
Proof.
  intros H. destruct (normalize_int 400 n 0 H) as (m & k & E & Hk & Hm & R); [|lia|lia|].
  { assert (2 ^ 53 <= 10 ^ 16) by lia. assert (10 ^ 16 <= 10 ^ Z.of_nat 400) by (apply Z.pow_le_mono_r; lia). lia. }
  exists m, k. split; [exact E|].
  assert (P: 0 < 10 ^ k) by (apply Z.pow_pos_nonneg; lia).
  assert (Mz: m <> 0) by (intros ->; apply Hm; reflexivity).
  assert (A: Z.abs n = Z.abs m * 10 ^ k) by (rewrite E, Z.abs_mul; f_equal; lia).
  assert (K: k <= 15).
  { destruct (Z_le_gt_dec k 15); [assumption|]. assert (10 ^ 16 <= 10 ^ k) by (apply Z.pow_le_mono_r; lia).
    change (10 ^ 16) with 10000000000000000 in *. change (2 ^ 53) with 9007199254740992 in *. exfalso. nia. }
  split; [lia|]. split; [nia|].
  assert (NL: new_loop 400 (f64_of_Z n) 0 = Ok (f64_of_Z n, 0)).
  { apply new_loop_stop; [discriminate | apply has_fract_int; lia]. }
  unfold real_new. destruct (int_finite n H) as (s & x & y & F). rewrite F. rewrite <- F.
  rewrite NL. cbn [bind]. rewrite R. reflexivity.
Qed.

Lemma real_new_holds n : 0 < Z.abs n < 2 ^ 53 -> exists r, real_new (f64_of_Z n) = Ok r /\ holds r (inject_Z n).
Proof.
  intros H. destruct (real_new_int n H) as (m & k & E & Hk & Hm & R). eexists. split; [exact R|].
  destruct (f64_value_int m) as (q & Eq & Hq); [lia|]. unfold holds, real_value. rewrite Eq. eexists. split; [reflexivity|].
  rewrite Hq, E. rewrite inject_Z_mult, Zpower_Qpower by lia. reflexivity.
Qed.

(** ** [Real::f64] *)

Lemma powi_loop_ten p : forall a b, 0 < a -> 0 <= b -> a * Z.pos p + b <= 15 ->
  powi_loop p (f64_of_Z (10 ^ a)) (f64_of_Z (10 ^ b)) = f64_of_Z (10 ^ (a * Z.pos p + b)).
Proof.
  assert (P: forall x, 0 <= x <= 15 -> 0 < 10 ^ x < 2 ^ 53).
  { intros x Hx. split; [apply Z.pow_pos_nonneg; lia|]. assert (10 ^ x <= 10 ^ 15) by (apply Z.pow_le_mono_r; lia).
    change (10 ^ 15) with 1000000000000000 in *. change (2 ^ 53) with 9007199254740992. lia. }
  assert (M: forall x y, 0 <= x -> 0 <= y -> x + y <= 15 -> fmul (f64_of_Z (10 ^ x)) (f64_of_Z (10 ^ y)) = f64_of_Z (10 ^ (x + y))).
  { intros x y Hx Hy Hxy. pose proof (P x ltac:(lia)). pose proof (P y ltac:(lia)). pose proof (P (x + y) ltac:(lia)) as Q.
    rewrite Z.pow_add_r in * by lia. apply fmul_int; lia. }
  induction p as [p IH|p IH|]; intros a b Ha Hb H; cbn [powi_loop].
  - rewrite Pos2Z.inj_xI in *. rewrite !M by nia. rewrite IH by nia. do 2 f_equal. lia.
  - rewrite Pos2Z.inj_xO in *. rewrite !M by nia. rewrite IH by nia. do 2 f_equal. lia.
  - rewrite M by lia. do 2 f_equal. lia.
Qed.

Lemma powi_ten k : 0 <= k <= 15 -> powi (f64_of_Z 10) k = f64_of_Z (10 ^ k).
Proof.
  intros H. destruct k as [|p|p]; [reflexivity | | lia]. unfold powi.
  change (f64_of_Z 10) with (f64_of_Z (10 ^ 1)). change (f64_of_Z 1) with (f64_of_Z (10 ^ 0)).
  rewrite powi_loop_ten by lia. do 2 f_equal.
Qed.

Lemma real_f64_int m k : m <> 0 -> 0 <= k <= 15 -> Z.abs (m * 10 ^ k) < 2 ^ 53 ->
  real_f64 (RBinary (f64_of_Z m) 10 k 10) = f64_of_Z (m * 10 ^ k).
Proof.
  intros M K H. unfold real_f64. change (Z.of_N 10) with 10. rewrite powi_ten by exact K.
  apply fmul_int; [exact M | apply Z.pow_nonzero; lia | exact H].
Qed.

(** ** Decimal text *)

Lemma is_digit_48 d : (d < 10)%N -> is_digit (48 + d) = true.
Proof. intros H. unfold is_digit. apply andb_true_iff. split; apply N.leb_le; lia. Qed.

Definition digits (ds : list N) : list N := map (fun d => 48 + d)%N ds.
Lemma span_digits_app ds r : Forall (fun d => (d < 10)%N) ds -> match r with [] => True | c :: _ => is_digit c = false end ->
  span_digits (digits ds ++ r) = (digits ds, r).
Proof.
  intros F. induction F as [|d ds Hd F IH]; intros H.
  - destruct r as [|c r]; [reflexivity|]. cbn [digits map app span_digits]. rewrite H. reflexivity.
  - cbn [digits map app span_digits]. rewrite is_digit_48 by exact Hd. fold (digits ds). rewrite IH by exact H. reflexivity.
Qed.

Lemma digits_value_be ds : digits_value (digits ds) = Z.of_N (value_be 10 ds).
Proof.
  unfold digits_value, value_be. change 0 with (Z.of_N 0) at 1. generalize 0%N as a. induction ds as [|d ds IH]; intros a; [reflexivity|].
  cbn [digits map fold_left]. fold (digits ds). rewrite <- IH. f_equal. replace (48 + d - 48)%N with d by lia. lia.
Qed.

(** An optional sign, digits, E, an optional plus, digits. *)
Definition sign_text (neg : bool) (s : list N) : Prop := s = (if neg then [45%N] else []) \/ neg = false /\ s = [43%N].
Definition e_text (s : list N) : Prop := s = [69%N] \/ s = [101%N].

Lemma parse_f64_integer neg sg ds et sg' ds' v k :
  sign_text neg sg -> ds <> [] -> Forall (fun d => (d < 10)%N) ds -> e_text et -> sign_text false sg' ->
  ds' <> [] -> Forall (fun d => (d < 10)%N) ds' -> v = Z.of_N (value_be 10 ds) -> k = Z.of_N (value_be 10 ds') -> 0 < v ->
  parse_f64 (sg ++ digits ds ++ et ++ sg' ++ digits ds') = Some (f64_of_Z ((if neg then - v else v) * 10 ^ k)).
Proof.
  intros S N F E S' N' F' -> -> Pv. unfold parse_f64.
  set (rest := et ++ sg' ++ digits ds').
  assert (D0: forall l, ds <> [] -> match digits ds ++ l with c :: _ => (48 <= c <= 57)%N | [] => False end).
  { intros l _. destruct ds as [|d ds]; [congruence|]. cbn [digits map app]. apply Forall_cons_iff in F as [F _]. lia. }
  assert (SS: span_sign (sg ++ digits ds ++ rest) = (neg, digits ds ++ rest)).
  { specialize (D0 rest N). destruct S as [->|[-> ->]]; [destruct neg|]; cbn [app span_sign]; try reflexivity.
    destruct (digits ds ++ rest) as [|c l]; [contradiction|]. unfold span_sign.
    destruct (N.eqb_spec c 43); [lia|]. destruct (N.eqb_spec c 45); [lia|]. reflexivity. }
  rewrite SS. clear SS.
  assert (NL: forall l, (hd 0 l <= 57 -> l <> []-> exists c r, l = c :: r /\ c <= 57)%N) by (intros [|c r] Hl ?; [congruence | cbn in Hl; eauto]).
  assert (LL: forall x y, (100 <= x)%N -> list_eqb (map lower (digits ds ++ rest)) (x :: y) = false).
  { intros x y Hx. specialize (D0 rest N). destruct (digits ds ++ rest) as [|c l]; [contradiction|]. cbn [map]. unfold list_eqb.
    destruct (list_eq_dec N.eq_dec (lower c :: map lower l) (x :: y)) as [X|_]; [|reflexivity]. injection X as X _. unfold lower in X.
    destruct ((65 <=? c) && (c <=? 90))%N eqn:B; [apply andb_true_iff in B as [B1 B2]; apply N.leb_le in B1; lia | lia]. }
  rewrite !LL by discriminate. cbn [orb]. clear LL NL D0.
  assert (IE: match rest with [] => True | c :: _ => is_digit c = false end).
  { unfold rest. destruct E as [-> | ->]; reflexivity. }
  unfold parse_number. rewrite span_digits_app by assumption.
  assert (RF: match rest with c :: r' => if (c =? 46)%N then span_digits r' else ([], rest) | [] => ([], []) end = ([], rest)).
  { unfold rest. destruct E as [-> | ->]; reflexivity. }
  rewrite RF. assert (Nd: digits ds <> []) by (destruct ds; [congruence | discriminate]).
  assert (PE: parse_exponent rest = Some (Z.of_N (value_be 10 ds'))).
  { unfold rest. assert (P: forall c, (lower c =? 101)%N = true -> parse_exponent (c :: sg' ++ digits ds') = Some (Z.of_N (value_be 10 ds'))).
    { intros c Hc. unfold parse_exponent. rewrite Hc.
      assert (SS: span_sign (sg' ++ digits ds') = (false, digits ds')).
      { destruct S' as [->|[_ ->]]; [|reflexivity]. cbn [app]. destruct ds' as [|d ds']; [congruence|]. cbn [digits map].
        apply Forall_cons_iff in F' as [F' _]. unfold span_sign. destruct (N.eqb_spec (48 + d) 43); [lia|]. destruct (N.eqb_spec (48 + d) 45); [lia|]. reflexivity. }
      rewrite SS. pose proof (span_digits_app ds' [] F' I) as SD. rewrite app_nil_r in SD. rewrite SD.
      destruct (digits ds') eqn:Z; [destruct ds'; [congruence | discriminate]|]. rewrite <- Z, digits_value_be. reflexivity. }
    destruct E as [-> | ->]; apply P; reflexivity. }
  rewrite PE, app_nil_r. cbn [length]. rewrite digits_value_be.
  destruct (digits ds) eqn:Z; [congruence|]. rewrite Z.sub_0_r. f_equal. clear - Pv.
  set (v := Z.of_N (value_be 10 ds)) in *. set (k := Z.of_N (value_be 10 ds')). assert (0 <= k) by lia. clearbody v k.
  unfold round_decimal. destruct v as [|p|p]; try lia.
  assert (T: 0 < 10 ^ k) by (apply Z.pow_pos_nonneg; lia).
  transitivity (binary_round 53 1024 neg (p * Z.to_pos (10 ^ k)) 0); [destruct k; [reflexivity | reflexivity | lia]|].
  rewrite f64_of_Z_sign by (destruct neg; nia). f_equal.
  - destruct neg; symmetry; [apply Z.ltb_lt | apply Z.ltb_ge]; nia.
  - apply Pos2Z.inj. rewrite Pos2Z.inj_mul, !Z2Pos.id by (destruct neg; nia). rewrite Z.abs_mul, (Z.abs_eq (10 ^ k)) by lia. destruct neg; reflexivity.
Qed.
