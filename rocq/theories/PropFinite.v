(** C91: exactly which reals of base 2 are converted to a finite float. *)
From Coq Require Import SpecFloat QArith Qpower Qabs.
From Verif Require Import Base MHeader MEncode MBer MInt MCont MReal SReal PFloat PReal PropReal PropReals.
Local Open Scope Z_scope.

Lemma top_below k x : Z.pos k < 2 ^ 53 -> x <= 971 -> (dy (Z.pos k) x < 2 ^ 1024)%Q.
Proof.
  intros Hk Hx. setoid_replace (2 ^ 1024)%Q with (dy (2 ^ 53) 971) by (vm_compute; reflexivity).
  replace 971 with (x + (971 - x)) by lia. rewrite <- dy_shift by lia. apply dy_lt.
  pose proof (Z.pow_pos_nonneg 2 (971 - x) ltac:(lia) ltac:(lia)). nia.
Qed.

Lemma top_above k x : normal k -> 971 < x -> (2 ^ 1024 <= dy (Z.pos k) x)%Q.
Proof.
  intros Hk Hx. setoid_replace (2 ^ 1024)%Q with (dy (2 ^ 52) 972) by (vm_compute; reflexivity).
  replace x with (972 + (x - 972)) by lia. rewrite <- (dy_shift (Z.pos k)) by lia. apply dy_le.
  unfold normal in Hk. pose proof (Z.pow_pos_nonneg 2 (x - 972) ltac:(lia) ltac:(lia)). nia.
Qed.

Lemma size_of (s : bool) k e i : (Qabs (inject_Z (if s then Z.neg k else Z.pos k) * 2 ^ e) * 2 ^ i == dy (Z.pos k) (e + i))%Q.
Proof.
  rewrite Qabs_Qmult, (Qabs_pos (2 ^ e)) by (apply Qlt_le_weak, two_pos).
  setoid_replace (Qabs (inject_Z (if s then Z.neg k else Z.pos k))) with (inject_Z (Z.pos k)) by (destruct s; reflexivity).
  apply dy_scale.
Qed.

(** A product with a power of two: finite, or infinite when the exact product is too large. *)
Definition float_ok (s : bool) (x : f64) : Prop := x = S754_zero s \/ exists k e, x = S754_finite s k e.

Lemma times_power s k e i : bounded 53 1024 k e = true -> i <= 1023 ->
  (e + i <= 971 \/ Z.pos k < 2 ^ 52) /\ float_ok s (fmul (S754_finite s k e) (powi (f64_of_Z 2) i))
  \/ (971 < e + i /\ normal k) /\ fmul (S754_finite s k e) (powi (f64_of_Z 2) i) = S754_infinity s.
Proof.
  intros HB Hi. pose proof (bounded_cases _ _ HB) as [HL HC].
  assert (K0 : Z.pos k < 2 ^ 53) by (unfold normal in HC; change (2 ^ 53) with (2 * 2 ^ 52) in *; lia).
  assert (T : forall k2 e2, Z.pos k2 < 2 ^ 53 -> e + e2 <= -300 -> float_ok s (fmul (S754_finite s k e) (S754_finite false k2 e2))).
  { intros k2 e2 H2 He. destruct (fmul_tiny s k e k2 e2 K0 H2 He) as [F|(k' & e' & F & _)]; [left; exact F|right; eauto]. }
  destruct (Z_lt_le_dec i (-1023)) as [L|L].
  { left. split; [lia|]. rewrite powi_two_small by lia. left. cbn. rewrite xorb_false_r. reflexivity. }
  destruct (Z.eq_dec i (-1023)) as [->|Ni].
  { left. split; [lia|]. rewrite powi_two_1023. destruct (Z_le_gt_dec e 774) as [S|S]; [apply T; [reflexivity|lia]|].
    destruct HC as [[HN _]|[_ E0]]; [|lia]. right. exists k, (e + -1023). unfold fmul, SFmul. rewrite xorb_false_r.
    replace (Z.pos (k * 2251799813685248)) with (Z.pos k * 2 ^ (e + -1023 - (e + -1074))).
    - apply round_aux_canonical; [apply bounded_normal; [exact HN|lia]|lia].
    - replace (e + -1023 - (e + -1074)) with 51 by lia. rewrite Pos2Z.inj_mul. reflexivity. }
  assert (P : powi (f64_of_Z 2) i = pow2f i).
  { destruct (Z.eq_dec i (-1022)) as [->|]; [apply powi_two_1022 | apply powi_two; lia]. }
  rewrite P. destruct HC as [[HN Le]|[Hk ->]].
  - destruct (Z_lt_le_dec (e + i) (-1074)) as [S|S].
    + left. split; [lia|]. apply T; [reflexivity|lia].
    + rewrite (fmul_pow2_from s k e k e i HN) by (try rewrite Z.sub_diag; lia). destruct (Z.leb_spec (e + i) 971) as [U|U].
      * left. split; [lia|]. right. eauto.
      * right. split; [split; [lia|exact HN]|reflexivity].
  - left. split; [lia|]. destruct (Z_le_gt_dec i 826) as [S|S]; [apply T; [reflexivity|lia]|].
    destruct (normal_form (Z.pos k)) as (k' & j & HN & Hj & Ej); [lia|].
    rewrite (fmul_pow2_from s k (-1074) k' (-1074 - j) i HN) by (try (replace (-1074 - (-1074 - j)) with j by lia); lia).
    replace (-1074 - j + i <=? 971) with true by (symmetry; apply Z.leb_le; lia). right. eauto.
Qed.

Lemma power_two_small i : i <= 1023 -> powi (f64_of_Z 2) i = S754_zero false \/ exists k e, powi (f64_of_Z 2) i = S754_finite false k e.
Proof.
  intros H. destruct (Z_lt_le_dec i (-1023)) as [L|L]; [left; apply powi_two_small; exact L|]. right.
  destruct (Z.eq_dec i (-1023)) as [->|]; [rewrite powi_two_1023; eauto|].
  destruct (Z.eq_dec i (-1022)) as [->|]; [rewrite powi_two_1022; unfold pow2f; eauto|]. rewrite powi_two by lia. unfold pow2f. eauto.
Qed.

(** The float is finite exactly when the mantissa is, the exponent is at most 1023 and the number is below 2^1024;
    otherwise it is infinite, with the sign of the mantissa, unless the mantissa is zero or no number. *)
Theorem C91_base_two (m : f64) (i : Z) (b : N) : valid_binary 53 1024 m = true ->
  ((exists q, f64_value (real_f64 (RBinary m 2 i b)) = Some q) <->
     i <= 1023 /\ exists q, f64_value m = Some q /\ (Qabs q * 2 ^ i < 2 ^ 1024)%Q)
  /\ (forall q, f64_value m = Some q -> ~ (q == 0)%Q -> ~ (i <= 1023 /\ (Qabs q * 2 ^ i < 2 ^ 1024)%Q) ->
        real_f64 (RBinary m 2 i b) = S754_infinity (if Qlt_le_dec q 0 then true else false))
  /\ (forall q, f64_value m = Some q -> (q == 0)%Q -> 1023 < i -> real_f64 (RBinary m 2 i b) = S754_nan).
Proof.
  intros V. cbn [real_f64]. change (f64_of_Z (Z.of_N 2)) with (f64_of_Z 2). destruct m as [s|s| |s k e].
  - split; [|split].
    + destruct (Z_lt_le_dec 1023 i) as [L|L].
      * rewrite powi_two_large by exact L. cbn. split; [intros (q & E); discriminate|lia].
      * destruct (power_two_small i L) as [->|(k & e & ->)]; cbn; (split; [|eauto]); intros _; (split; [exact L|]); exists 0%Q;
          (split; [reflexivity|]); change (Qabs 0) with 0%Q; rewrite Qmult_0_l; reflexivity.
    + intros q E. injection E as <-. intros N. exfalso. apply N. reflexivity.
    + intros q _ _ L. rewrite powi_two_large by exact L. reflexivity.
  - split; [|split; intros q E; discriminate]. split; [|intros (_ & q & E & _); discriminate].
    intros (q & E). exfalso. destruct (powi (f64_of_Z 2) i) as [?|?| |? ? ?]; discriminate E.
  - split; [|split; intros q E; discriminate]. split; [|intros (_ & q & E & _); discriminate].
    intros (q & E). exfalso. destruct (powi (f64_of_Z 2) i) as [?|?| |? ? ?]; discriminate E.
  - cbn [valid_binary] in V. pose proof (bounded_cases _ _ V) as [HL HC].
    assert (K0 : Z.pos k < 2 ^ 53) by (unfold normal in HC; change (2 ^ 53) with (2 * 2 ^ 52) in *; lia).
    assert (Sg : (if Qlt_le_dec (inject_Z (if s then Z.neg k else Z.pos k) * 2 ^ e) 0 then true else false) = s).
    { pose proof (two_pos e) as Te. destruct (Qlt_le_dec _ 0) as [L|L]; destruct s; try reflexivity; exfalso.
      - apply (Qlt_not_le _ _ L). apply Qmult_le_0_compat; [discriminate|apply Qlt_le_weak; exact Te].
      - apply (Qle_not_lt _ _ L). rewrite <- (Qmult_0_l (2 ^ e)). apply Qmult_lt_r; [exact Te|reflexivity]. }
    cbn [f64_value]. destruct (Z_lt_le_dec 1023 i) as [L|L].
    + rewrite powi_two_large by exact L. split; [|split].
      * cbn. split; [intros (q & E); discriminate|lia].
      * intros q E _ _. injection E as <-. rewrite Sg. cbn. rewrite xorb_false_r. reflexivity.
      * intros q E Z0. injection E as <-. exfalso. pose proof (size_of s k e 0) as S0. rewrite Z0 in S0. cbn in S0.
        assert (0 < dy (Z.pos k) (e + 0))%Q by (unfold dy; rewrite <- (Qmult_0_l (2 ^ (e + 0))); apply Qmult_lt_r; [apply two_pos|reflexivity]).
        rewrite <- S0 in H. discriminate H.
    + assert (U : (e + i <= 971 \/ Z.pos k < 2 ^ 52) -> (dy (Z.pos k) (e + i) < 2 ^ 1024)%Q).
      { intros [U|U]; [apply top_below; assumption|]. apply top_below; [exact K0|]. destruct HC as [[HN _]|[_ ->]]; [unfold normal in HN|]; lia. }
      destruct (times_power s k e i V L) as [[C F]|[[C HN] F]].
      * split; [|split].
        -- split; [intros _; split; [exact L|]; eexists; split; [reflexivity|]; rewrite size_of; apply U; exact C|].
           intros _. destruct F as [->|(k' & e' & ->)]; cbn [f64_value]; eauto.
        -- intros q E _ N. injection E as <-. exfalso. apply N. split; [exact L|]. rewrite size_of. apply U. exact C.
        -- intros. lia.
      * rewrite F. pose proof (top_above k (e + i) HN C) as TA. split; [|split].
        -- cbn [f64_value]. split; [intros (q & E); discriminate|]. intros (_ & q & E & B). injection E as <-. exfalso.
           rewrite size_of in B. exact (Qlt_not_le _ _ B TA).
        -- intros q E _ _. injection E as <-. rewrite Sg. reflexivity.
        -- intros. lia.
Qed.
Print Assumptions C91_base_two.

(** 3 * 2^1022 is finite, -4 * 2^1022 and 1/4 * 2^1024 are not. *)
Example C91_base_two_case : valid_binary 53 1024 (f64_of_Z 3) = true
  /\ (exists q, f64_value (real_f64 (RBinary (f64_of_Z 3) 2 1022 2)) = Some q)
  /\ real_f64 (RBinary (f64_of_Z (-4)) 2 1022 2) = S754_infinity true
  /\ real_f64 (RBinary (fdiv (f64_of_Z 1) (f64_of_Z 4)) 2 1024 2) = S754_infinity false
  /\ real_f64 (RBinary (S754_zero true) 2 1024 2) = S754_nan.
Proof. split; [reflexivity|]. split; [eexists; vm_compute; reflexivity|]. repeat split; vm_compute; reflexivity. Qed.
