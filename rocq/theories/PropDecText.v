(** C107: the text written for a REAL of base 10 with any finite mantissa. *)
From Coq Require Import SpecFloat QArith Qpower Qabs Lqa.
From Verif Require Import Base MHeader MEncode SHeader PArith PHeader PEncode MBer SBer PBer
  MInt SInt PCodec PInt MOid SOid POid PTime MText SText PText MReal PFloat SReal PReal PropTime PropReal PDecimal PropDecimal PRound PropReals PropNumber PropNear PNearest PropRange PropHuge.
Local Open Scope Z_scope.

(** What is within an eighth of a unit of a number that can be kept is kept as this number. *)
Lemma rounded_near s k e v r : bounded 53 1024 k e = true -> rounded s v r -> (8 * Qabs (v - dy (Z.pos k) e) <= dy 1 e)%Q -> r = S754_finite s k e.
Proof.
  intros B (q & f & F & Q0 & N & L & U & C) H. pose proof B as B0. apply bounded_cases in B as [Be B].
  assert (Hk : Z.pos k < 2 ^ 53) by (unfold normal in B; lia).
  assert (D : forall z j, (dy z j == inject_Z z * dy 1 j)%Q) by (intros; unfold dy; change (inject_Z 1) with 1%Q; ring).
  assert (H1 : (8 * (v - dy (Z.pos k) e) <= dy 1 e /\ - (8 * (v - dy (Z.pos k) e)) <= dy 1 e)%Q).
  { pose proof (Qle_Qabs (v - dy (Z.pos k) e)) as A1. pose proof (Qle_Qabs (- (v - dy (Z.pos k) e))) as A2. rewrite Qabs_opp in A2.
    revert A1 A2 H. generalize (Qabs (v - dy (Z.pos k) e)), (v - dy (Z.pos k) e)%Q, (dy 1 e). intros. split; lra. }
  destruct H1 as [H1 H2]. apply dy_opp_abs in N as [N1 N2]. pose proof (dy_pos 1 f ltac:(lia)) as Pf. pose proof (dy_pos 1 e ltac:(lia)) as Pe.
  assert (Two : forall j, (dy 1 (j + 1) == 2 * dy 1 j)%Q).
  { intros j. rewrite <- (dy_shift 1 j 1) by lia. rewrite D. change (inject_Z (1 * 2 ^ 1)) with 2%Q. reflexivity. }
  assert (Mono : forall a b, a <= b -> (dy 1 a <= dy 1 b)%Q).
  { intros a b Hab. replace b with (a + (b - a)) by lia. rewrite <- (dy_shift 1 a (b - a)) by lia. apply dy_le. assert (0 < 2 ^ (b - a)) by (apply Z.pow_pos_nonneg; lia). lia. }
  assert (Hf : f <= e).
  { destruct L as [-> |L]; [lia|]. destruct (Z_le_gt_dec f e) as [G|G]; [exact G|exfalso].
    pose proof (Mono (e + 1) f ltac:(lia)) as M. rewrite Two in M. rewrite D in L. change (inject_Z (2 ^ 52)) with (4503599627370496 # 1)%Q in L.
    assert (K : (dy (Z.pos k) e <= (9007199254740991 # 1) * dy 1 e)%Q).
    { rewrite (D (Z.pos k)). apply Qmult_le_compat_r; [|apply Qlt_le_weak, Pe]. change (9007199254740991 # 1)%Q with (inject_Z 9007199254740991). rewrite <- Zle_Qle. change (2 ^ 53) with 9007199254740992 in Hk. lia. }
    revert M L K H1 Pe. generalize (dy 1 f), (dy 1 e), v, (dy (Z.pos k) e). intros. lra. }
  assert (Hf2 : (dy 1 e <= 2 * dy 1 f)%Q).
  { destruct (Z.eq_dec f e) as [-> |Ne]; [lra|]. destruct B as [[B _]|[_ ->]]; [|lia]. unfold normal in B.
    destruct (Z_le_gt_dec (e - 1) f) as [G|G].
    { pose proof (Mono (e - 1) f G) as M. pose proof (Two (e - 1)) as T. replace (e - 1 + 1) with e in T by lia. rewrite T. lra. }
    exfalso. pose proof (Mono f (e - 2) ltac:(lia)) as M. pose proof (Two (e - 1)) as T. replace (e - 1 + 1) with e in T by lia. pose proof (Two (e - 2)) as T2. replace (e - 2 + 1) with (e - 1) in T2 by lia.
    rewrite D in U. change (inject_Z (2 ^ 53)) with (9007199254740992 # 1)%Q in U.
    assert (K : ((4503599627370496 # 1) * dy 1 e <= dy (Z.pos k) e)%Q).
    { rewrite (D (Z.pos k)). apply Qmult_le_compat_r; [|apply Qlt_le_weak, Pe]. change (4503599627370496 # 1)%Q with (inject_Z (2 ^ 52)). rewrite <- Zle_Qle. lia. }
    revert M T T2 U K H2 Pe. generalize (dy 1 f), (dy 1 e), (dy 1 (e - 1)), (dy 1 (e - 2)), v, (dy (Z.pos k) e). intros. lra. }
  set (K := Z.pos k * 2 ^ (e - f)).
  assert (EK : (dy (Z.pos k) e == dy K f)%Q). { unfold K. rewrite dy_shift by lia. replace (f + (e - f)) with e by lia. reflexivity. }
  apply (kept_form s k e q f r); [exact B0|lia| |exact C]. fold K.
  rewrite EK in H1, H2. rewrite (D K) in H1, H2. rewrite (D q) in N1, N2.
  assert (G1 : (inject_Z q < inject_Z (K + 1))%Q).
  { apply (Qmult_lt_r _ _ _ Pf). rewrite inject_Z_plus. change (inject_Z 1) with 1%Q. setoid_replace ((inject_Z K + 1) * dy 1 f)%Q with (inject_Z K * dy 1 f + dy 1 f)%Q by ring.
    revert N1 H1 Hf2 Pf. generalize (inject_Z q * dy 1 f)%Q, (inject_Z K * dy 1 f)%Q, (dy 1 f), (dy 1 e), v. intros. lra. }
  assert (G2 : (inject_Z K < inject_Z (q + 1))%Q).
  { apply (Qmult_lt_r _ _ _ Pf). rewrite inject_Z_plus. change (inject_Z 1) with 1%Q. setoid_replace ((inject_Z q + 1) * dy 1 f)%Q with (inject_Z q * dy 1 f + dy 1 f)%Q by ring.
    revert N2 H2 Hf2 Pf. generalize (inject_Z q * dy 1 f)%Q, (inject_Z K * dy 1 f)%Q, (dy 1 f), (dy 1 e), v. intros. lra. }
  rewrite <- Zlt_Qlt in G1, G2. lia.
Qed.

Lemma is_datum_any d y k e : is_datum (round_decimal false d y) k e = true -> 0 < d /\ round_decimal false d y = S754_finite false k e.
Proof.
  intros H. destruct d as [|p|p]; try discriminate. split; [lia|].
  destruct (round_decimal_nearest false (Z.pos p) y ltac:(lia)) as (q & f & _ & _ & _ & _ & _ & [[_ C]|(k' & e' & _ & _ & _ & C)]); rewrite C in *; [discriminate|].
  destruct (e' <=? 971); [|discriminate]. cbn [is_datum] in H. apply andb_true_iff in H as [X1 X2]. apply Pos.eqb_eq in X1. apply Z.eqb_eq in X2. now subst.
Qed.

(** The ratio that is divided. *)
Lemma ratio_value k e y : let num := Z.pos k * 2 ^ Z.max e 0 * 10 ^ Z.max (- y) 0 in let den := 2 ^ Z.max (- e) 0 * 10 ^ Z.max y 0 in
  (inject_Z num * 10 ^ y == dy (Z.pos k) e * inject_Z den)%Q.
Proof.
  cbv zeta. rewrite !inject_Z_mult, !Zpower_Qpower by lia. change (inject_Z 2) with 2%Q. change (inject_Z 10) with 10%Q. unfold dy.
  assert (A : (2 ^ Z.max e 0 == 2 ^ e * 2 ^ Z.max (- e) 0)%Q).
  { rewrite <- Qpower_plus by exact two_ne. replace (e + Z.max (- e) 0) with (Z.max e 0) by lia. reflexivity. }
  assert (T : (10 ^ Z.max (- y) 0 * 10 ^ y == 10 ^ Z.max y 0)%Q).
  { rewrite <- Qpower_plus by discriminate. replace (Z.max (- y) 0 + y) with (Z.max y 0) by lia. reflexivity. }
  rewrite A, <- T. ring.
Qed.

Lemma shortest_loop_any s k e ys : bounded 53 1024 k e = true -> (4 * 10 ^ ys <= dy 1 e)%Q -> forall n y, ys <= y -> y < ys + Z.of_nat n ->
  exists d y', shortest_loop n (S754_finite s k e) k e y = (d, y') /\ ys <= y' <= y
    /\ 0 < d <= Z.pos k * 2 ^ Z.max e 0 * 10 ^ Z.max (- y') 0 + 1 /\ round_decimal false d y' = S754_finite false k e.
Proof.
  intros B HT. induction n as [|n IH]; intros y Hy Hn; [lia|]. cbn [shortest_loop].
  destruct (shortest_with (S754_finite s k e) k e y) as [d|] eqn:E.
  - exists d, y. split; [reflexivity|]. split; [lia|]. rewrite (shortest_form _ k e y k e s eq_refl) in E. cbv zeta in E.
    set (num := Z.pos k * 2 ^ Z.max e 0 * 10 ^ Z.max (- y) 0) in *. set (den := 2 ^ Z.max (- e) 0 * 10 ^ Z.max y 0) in *.
    assert (P1 : 0 < den) by (apply Z.mul_pos_pos; apply Z.pow_pos_nonneg; lia).
    assert (P2 : 0 <= num) by (apply Z.mul_nonneg_nonneg; [apply Z.mul_nonneg_nonneg; [lia|]|]; apply Z.pow_nonneg; lia).
    assert (L : num / den <= num) by (apply Z.div_le_upper_bound; nia). set (q := num / den) in *.
    assert (G : d <= num + 1 /\ is_datum (round_decimal false d y) k e = true).
    { repeat match type of E with context [if ?b then _ else _] => destruct b eqn:? end; try discriminate; injection E as <-; (split; [lia|assumption]). }
    destruct G as [G1 G2]. apply is_datum_any in G2 as [G2 G3]. split; [lia|exact G3].
  - destruct (IH (y - 1)) as (d & y' & E' & Hy' & R); [|lia|exists d, y'; split; [exact E'|]; split; [lia|exact R]].
    destruct (Z.eq_dec y ys) as [-> |]; [exfalso|lia]. clear IH Hy Hn.
    pose proof (ratio_value k e ys) as RV. rewrite (shortest_form _ k e ys k e s eq_refl) in E. cbv zeta in E, RV.
    set (num := Z.pos k * 2 ^ Z.max e 0 * 10 ^ Z.max (- ys) 0) in *. set (den := 2 ^ Z.max (- e) 0 * 10 ^ Z.max ys 0) in *.
    assert (P1 : 0 < den) by (apply Z.mul_pos_pos; apply Z.pow_pos_nonneg; lia).
    assert (P2 : 0 < num) by (apply Z.mul_pos_pos; [apply Z.mul_pos_pos; [lia|]|]; apply Z.pow_pos_nonneg; lia).
    assert (PD : (0 < inject_Z den)%Q) by (change 0%Q with (inject_Z 0); rewrite <- Zlt_Qlt; exact P1). pose proof (ten_pos ys) as PT.
    assert (Pos4 : (dy 1 e <= dy (Z.pos k) e)%Q) by (apply dy_le; lia).
    assert (G : forall d, 2 * Z.abs (d * den - num) <= den -> is_datum (round_decimal false d ys) k e = true).
    { intros d Hd.
      assert (C1 : (2 * (inject_Z d * 10 ^ ys - dy (Z.pos k) e) <= 10 ^ ys /\ - (2 * (inject_Z d * 10 ^ ys - dy (Z.pos k) e)) <= 10 ^ ys)%Q).
      { assert (I1 : 2 * (d * den) <= den + 2 * num /\ 2 * num <= den + 2 * (d * den)) by lia. destruct I1 as [I1 I2]. rewrite Zle_Qle in I1, I2.
        rewrite ?inject_Z_plus, ?inject_Z_mult in I1, I2. change (inject_Z 2) with 2%Q in *. split; apply (Qmult_le_r _ _ _ PD).
        - setoid_replace (2 * (inject_Z d * 10 ^ ys - dy (Z.pos k) e) * inject_Z den)%Q with (2 * (inject_Z d * inject_Z den) * 10 ^ ys - 2 * (dy (Z.pos k) e * inject_Z den))%Q by ring.
          rewrite <- RV. pose proof (Qmult_le_compat_r _ _ (10 ^ ys) I1 ltac:(apply Qlt_le_weak, PT)) as J.
          setoid_replace ((inject_Z den + 2 * inject_Z num) * 10 ^ ys)%Q with (10 ^ ys * inject_Z den + 2 * (inject_Z num * 10 ^ ys))%Q in J by ring.
          revert J. generalize (2 * (inject_Z d * inject_Z den) * 10 ^ ys)%Q, (10 ^ ys * inject_Z den)%Q, (inject_Z num * 10 ^ ys)%Q. intros. lra.
        - setoid_replace (- (2 * (inject_Z d * 10 ^ ys - dy (Z.pos k) e)) * inject_Z den)%Q with (2 * (dy (Z.pos k) e * inject_Z den) - 2 * (inject_Z d * inject_Z den) * 10 ^ ys)%Q by ring.
          rewrite <- RV. pose proof (Qmult_le_compat_r _ _ (10 ^ ys) I2 ltac:(apply Qlt_le_weak, PT)) as J.
          setoid_replace ((inject_Z den + 2 * (inject_Z d * inject_Z den)) * 10 ^ ys)%Q with (10 ^ ys * inject_Z den + 2 * (inject_Z d * inject_Z den) * 10 ^ ys)%Q in J by ring.
          setoid_replace (2 * inject_Z num * 10 ^ ys)%Q with (2 * (inject_Z num * 10 ^ ys))%Q in J by ring.
          revert J. generalize (2 * (inject_Z d * inject_Z den) * 10 ^ ys)%Q, (10 ^ ys * inject_Z den)%Q, (inject_Z num * 10 ^ ys)%Q. intros. lra. }
      destruct C1 as [C1 C2].
      assert (Pd : 0 < d).
      { destruct (Z_lt_le_dec 0 d) as [G|G]; [exact G|exfalso].
        assert (Z : (inject_Z d * 10 ^ ys <= 0)%Q).
        { setoid_replace 0%Q with (0 * 10 ^ ys)%Q by ring. apply Qmult_le_compat_r; [|apply Qlt_le_weak, PT]. change 0%Q with (inject_Z 0). rewrite <- Zle_Qle. exact G. }
        revert Z C2 HT Pos4 PT. generalize (inject_Z d * 10 ^ ys)%Q, (10 ^ ys)%Q, (dy 1 e), (dy (Z.pos k) e). intros. lra. }
      rewrite (rounded_near false k e (inject_Z d * 10 ^ ys) (round_decimal false d ys) B (round_decimal_nearest false d ys Pd)).
      - cbn [is_datum]. rewrite Pos.eqb_refl, Z.eqb_refl. reflexivity.
      - revert C1 C2 HT. generalize (inject_Z d * 10 ^ ys)%Q, (10 ^ ys)%Q, (dy 1 e), (dy (Z.pos k) e). intros. apply Qabs_case; intros; lra. }
    pose proof (Z.div_mod num den ltac:(lia)) as DM. pose proof (Z.mod_pos_bound num den P1) as MB.
    set (q := num / den) in *. set (r := num mod den) in *.
    destruct (Z.leb_spec (2 * r) den) as [C|C].
    + rewrite (G q) in E by nia. discriminate.
    + rewrite (G (q + 1)) in E by nia. discriminate.
Qed.

(** Enough digits. *)
Definition last_place (e : Z) : Z := if e <? 2 then (e - 2) * 31 / 100 else (e - 2) * 3 / 10.
Lemma last_place_small e : -1074 <= e <= 971 -> (4 * 10 ^ last_place e <= dy 1 e)%Q.
Proof.
  intros He. assert (T : forallb (fun i => let e := Z.of_nat i - 1074 in
    4 * 10 ^ Z.max (last_place e) 0 * 2 ^ Z.max (- e) 0 <=? 2 ^ Z.max e 0 * 10 ^ Z.max (- last_place e) 0) (seq 0 2046) = true) by (vm_compute; reflexivity).
  pose proof (proj1 (forallb_forall _ _) T (Z.to_nat (e + 1074))) as H. clear T. cbv zeta beta in H. rewrite Z2Nat.id in H by lia. replace (e + 1074 - 1074) with e in H by lia.
  specialize (H ltac:(apply in_seq; lia)). apply Z.leb_le in H. set (y := last_place e) in *. clearbody y.
  rewrite Zle_Qle, !inject_Z_mult, !Zpower_Qpower in H by lia. change (inject_Z 2) with 2%Q in H. change (inject_Z 10) with 10%Q in H. change (inject_Z 4) with 4%Q in H.
  assert (A : (2 ^ Z.max e 0 == 2 ^ e * 2 ^ Z.max (- e) 0)%Q).
  { rewrite <- Qpower_plus by exact two_ne. replace (e + Z.max (- e) 0) with (Z.max e 0) by lia. reflexivity. }
  assert (T : (10 ^ Z.max y 0 == 10 ^ Z.max (- y) 0 * 10 ^ y)%Q).
  { rewrite <- Qpower_plus by discriminate. replace (Z.max (- y) 0 + y) with (Z.max y 0) by lia. reflexivity. }
  rewrite A, T in H. pose proof (two_pos (Z.max (- e) 0)) as P1. pose proof (ten_pos (Z.max (- y) 0)) as P2.
  unfold dy. change (inject_Z 1) with 1%Q. rewrite Qmult_1_l.
  apply (Qmult_le_r _ _ (2 ^ Z.max (- e) 0 * 10 ^ Z.max (- y) 0)); [apply Qmult_lt_0_compat; assumption|].
  setoid_replace (4 * 10 ^ y * (2 ^ Z.max (- e) 0 * 10 ^ Z.max (- y) 0))%Q with (4 * (10 ^ Z.max (- y) 0 * 10 ^ y) * 2 ^ Z.max (- e) 0)%Q by ring.
  setoid_replace (2 ^ e * (2 ^ Z.max (- e) 0 * 10 ^ Z.max (- y) 0))%Q with (2 ^ e * 2 ^ Z.max (- e) 0 * 10 ^ Z.max (- y) 0)%Q by ring. exact H.
Qed.

(** What [Display] writes for a finite number: digits with or without a point, of a number that is rounded to it. *)
Lemma show_any s k e : bounded 53 1024 k e = true ->
  exists ds pt fs, show_f64 (S754_finite s k e) = (if s then [45%N] else []) ++ digits ds ++ pt ++ digits fs /\ ds <> []
    /\ Forall (fun d => (d < 10)%N) ds /\ Forall (fun d => (d < 10)%N) fs /\ (pt = [46%N] \/ pt = [] /\ fs = []) /\ (length ds + length fs <= 3000)%nat
    /\ let V := Z.of_N (value_be 10 (ds ++ fs)) in 0 < V /\ round_decimal s V (- Z.of_nat (length fs)) = S754_finite s k e.
Proof.
  intros B. destruct (has_fract (S754_finite s k e)) eqn:F.
  2:{ destruct (show_integral s k e B F) as (ds & Sh & Nd & Fd & Ld & PV & RV). exists ds, [], []. split; [rewrite Sh; cbn; now rewrite app_nil_r|]. split; [exact Nd|].
      split; [exact Fd|]. split; [constructor|]. split; [right; auto|]. split; [cbn [length]; lia|]. rewrite app_nil_r. cbv zeta in *. split; [exact PV|apply RV]. }
  pose proof B as B0. apply bounded_cases in B as [Be B]. assert (Hk : Z.pos k < 2 ^ 53) by (unfold normal in B; lia).
  assert (E0 : -1074 <= e < 0). { split; [lia|]. cbn [has_fract] in F. destruct e; try discriminate. lia. }
  unfold show_f64. rewrite F. cbn [negb andb]. cbv zeta.
  set (b := Z.pos (digits2_pos k) + e). set (y0 := Z.max (b * 4 / 13) (b * 3 / 10) + 1).
  assert (Hb : 1 + e <= b <= 53 + e). { unfold b. pose proof (bounded_digits _ _ B0) as [G _]. lia. }
  assert (Ly : last_place e = (e - 2) * 31 / 100) by (unfold last_place; destruct (Z.ltb_spec e 2); [reflexivity|lia]).
  destruct (shortest_loop_any s k e (last_place e) B0 (last_place_small e ltac:(lia)) 60%nat y0) as (d & y & E & Hy & Hd & R).
  { rewrite Ly. unfold y0. lia. } { rewrite Ly. unfold y0. change (Z.of_nat 60) with 60. lia. }
  rewrite E. rewrite Ly in Hy. assert (Hy2 : -400 <= y <= 20) by (unfold y0 in Hy; lia).
  rewrite (Z.max_r e) in Hd by lia. change (2 ^ 0) with 1 in Hd. rewrite Z.mul_1_r in Hd.
  destruct (decimal_digits (Z.to_N d)) as (dd & D & Nd & Fd & Vd). 
  assert (Len : (length dd <= 500)%nat).
  { assert ((length (digits dd) <= 500)%nat); [|unfold digits in *; rewrite map_length in *; lia]. rewrite <- D. apply decimal_short; [lia|].
    apply N.le_lt_trans with (Z.to_N (2 ^ 53 * 10 ^ 400 + 1)); [|vm_compute; reflexivity]. apply Z2N.inj_le; [lia|lia|].
    assert (10 ^ Z.max (- y) 0 <= 10 ^ 400) by (apply Z.pow_le_mono_r; lia). assert (0 < 10 ^ Z.max (- y) 0) by (apply Z.pow_pos_nonneg; lia).
    clear - Hd H H0 Hk. revert Hd H H0. generalize (10 ^ Z.max (- y) 0), (10 ^ 400). intros. assert (Z.pos k * z <= 2 ^ 53 * z0) by (apply Z.mul_le_mono_nonneg; lia). lia. }
  apply (round_decimal_sign false s) in R.
  unfold plain_decimal. destruct (Z.leb_spec 0 y) as [Py|Py].
  - exists (dd ++ repeat 0%N (Z.to_nat y)), [], []. split; [rewrite D, digits_app, digits_repeat; cbn; now rewrite app_nil_r|]. split; [destruct dd; [congruence|discriminate]|].
    split. { apply Forall_app. split; [exact Fd|]. apply Forall_forall. intros z Hz. apply repeat_spec in Hz. subst. reflexivity. }
    split; [constructor|]. split; [right; auto|]. split; [rewrite app_length, repeat_length; cbn [length]; lia|].
    cbv zeta. rewrite app_nil_r, value_be_app, value_zeros, N.add_0_r, <- Vd, repeat_length, N2Z.inj_mul, N2Z.inj_pow, Z2N.id, nat_N_Z, Z2Nat.id by lia.
    change (Z.of_N 10) with 10. assert (PT : 0 < 10 ^ y) by (apply Z.pow_pos_nonneg; lia). split; [nia|]. rewrite <- R. cbn [length]. change (- Z.of_nat 0) with 0.
    destruct d as [|p|p]; [lia| |lia].
    assert (X : Z.pos p * 10 ^ y = Z.pos (p * Z.to_pos (10 ^ y))) by (rewrite Pos2Z.inj_mul, Z2Pos.id by exact PT; reflexivity). rewrite X.
    cbn [round_decimal]. change (Z.to_pos (10 ^ 0)) with 1%positive. rewrite Pos.mul_1_r. destruct y; [reflexivity|reflexivity|lia].
  - set (k' := Z.to_nat (- y)). rewrite D. set (t := repeat 0%N (S k' - length (digits dd)) ++ dd).
    assert (Et : repeat 48%N (S k' - length (digits dd)) ++ digits dd = digits t) by (unfold t; now rewrite digits_app, digits_repeat).
    rewrite Et. assert (Lt : length (digits t) = length t) by (unfold digits; apply map_length). assert (Ldd : length (digits dd) = length dd) by (unfold digits; apply map_length).
    assert (Lk : (S k' <= length t)%nat) by (unfold t; rewrite app_length, repeat_length, Ldd; lia).
    assert (Lm : (length t <= 1000)%nat) by (unfold t, k'; rewrite app_length, repeat_length, Ldd; lia).
    assert (Ft : Forall (fun d => (d < 10)%N) t).
    { apply Forall_app. split; [|exact Fd]. apply Forall_forall. intros z Hz. apply repeat_spec in Hz. subst. reflexivity. }
    rewrite Lt. exists (firstn (length t - k') t), [46%N], (skipn (length t - k') t).
    assert (Fs : Forall (fun d => (d < 10)%N) (firstn (length t - k') t) /\ Forall (fun d => (d < 10)%N) (skipn (length t - k') t)).
    { rewrite <- (firstn_skipn (length t - k') t) in Ft. apply Forall_app in Ft. exact Ft. }
    destruct Fs as [Fs1 Fs2].
    split. { unfold digits. rewrite firstn_map, skipn_map. reflexivity. }
    split. { intros G. apply (f_equal (@length N)) in G. rewrite firstn_length in G. cbn [length] in G. lia. }
    split; [exact Fs1|]. split; [exact Fs2|]. split; [left; reflexivity|].
    split; [rewrite firstn_length, skipn_length; lia|]. rewrite firstn_skipn, skipn_length. cbv zeta.
    replace (length t - (length t - k'))%nat with k' by lia.
    assert (Vt : value_be 10 t = value_be 10 dd) by (unfold t; rewrite value_be_app, value_zeros; lia).
    rewrite Vt, <- Vd, Z2N.id by lia. split; [lia|]. rewrite <- R. f_equal. unfold k'. lia.
Qed.

(** The text that is written: its number is within half a unit of the mantissa, times the power of ten. *)
Theorem C107_text (s : bool) (k : positive) (e x : Z) (eb : N) : bounded 53 1024 k e = true -> - 2 ^ 31 <= x < 2 ^ 31 ->
  exists enc T v y, to_vec (tober_real (RBinary (S754_finite s k e) 10 x eb)) = Ok enc /\ bytes_ok enc
    /\ (forall r, starts_with_object Universal false 9 (3%N :: T) (enc ++ r) r) /\ number_text s v (x + y) T /\ 0 < v
    /\ (2 * Qabs (inject_Z v * 10 ^ y - inject_Z (Z.pos k) * 2 ^ e) <= 2 ^ e)%Q.
Proof.
  intros B Hx. destruct (show_any s k e B) as (ds & pt & fs & Sh & Nd & Fd & Ff & Hp & Hl & PV & RV). destruct (exponent_written x) as (ex & Ex & Tx & _).
  set (V := Z.of_N (value_be 10 (ds ++ fs))) in *. set (T := (if s then [45%N] else []) ++ digits ds ++ pt ++ digits fs ++ 69%N :: ex).
  assert (NT : number_text s V (x + - Z.of_nat (length fs)) T).
  { exists (if s then [45%N] else []), (digits ds ++ pt ++ digits fs ++ 69%N :: ex). split; [left; reflexivity|]. split; [|reflexivity].
    exists ds, pt, fs, (69%N :: ex), x. split; [exact Fd|]. split; [exact Ff|]. split; [destruct ds; [congruence|discriminate]|]. split; [exact Hp|]. split; [exact Tx|].
    split; [reflexivity|]. split; [reflexivity|]. lia. }
  pose proof (number_ascii _ _ _ _ NT) as A.
  assert (Le : (length ex <= 12)%nat).
  { assert (G : forall n : N, (n < 10 ^ 10)%N -> (length (decimal n) <= 10)%nat) by (intros n Hn; apply decimal_short; [lia|exact Hn]).
    rewrite <- Ex, app_length. assert ((length (if (x =? 0)%Z then [43%N] else []) <= 1)%nat) by (destruct (x =? 0); cbn; lia).
    unfold decimal_Z. change (10 ^ 10)%N with 10000000000%N in G. change (2 ^ 31) with 2147483648 in Hx.
    destruct (x <? 0); cbn [length]; [pose proof (G (Z.to_N (- x)) ltac:(lia))|pose proof (G (Z.to_N x) ltac:(lia))]; lia. }
  destruct (written_real (RBinary (S754_finite s k e) 10 x eb) (3%N :: T)) as (enc & En & Oe & Se).
  - unfold real_write. change (10 =? 10)%N with true. cbv iota. unfold real_text. rewrite Sh, Ex, <- !app_assoc. reflexivity.
  - unfold blen. cbn [length]. unfold T. rewrite !app_length. unfold digits. rewrite !map_length. cbn [length].
    change (2 ^ 64)%N with 18446744073709551616%N. assert ((length pt <= 1)%nat) by (destruct Hp as [-> |[-> _]]; cbn; lia). destruct s; cbn [length]; lia.
  - constructor; [reflexivity|]. eapply Forall_impl; [|exact A]. cbn. intros; lia.
  - exists enc, T, V, (- Z.of_nat (length fs)). split; [exact En|]. split; [exact Oe|]. split; [exact Se|]. split; [exact NT|]. split; [exact PV|].
    destruct (round_decimal_nearest s V (- Z.of_nat (length fs)) PV) as (q & f & _ & _ & N & _ & _ & C). rewrite RV in C.
    destruct C as [[_ C]|(k' & e' & Hf & Eq & _ & C)]; [discriminate|]. destruct (e' <=? 971); [|discriminate]. injection C as <- <-.
    assert (Df : (dy q f == dy (Z.pos k) e)%Q). { rewrite <- Eq, dy_shift by lia. replace (f + (e - f)) with e by lia. reflexivity. }
    rewrite Df in N. change (inject_Z (Z.pos k) * 2 ^ e)%Q with (dy (Z.pos k) e). rewrite <- Qabs_opp.
    setoid_replace (- (inject_Z V * 10 ^ (- Z.of_nat (length fs)) - dy (Z.pos k) e))%Q with (dy (Z.pos k) e - inject_Z V * 10 ^ (- Z.of_nat (length fs)))%Q by ring.
    eapply Qle_trans; [exact N|]. setoid_replace (2 ^ e)%Q with (dy 1 e) by (unfold dy; ring). replace e with (f + (e - f)) by lia. rewrite <- (dy_shift 1 f (e - f)) by lia.
    apply dy_le. assert (0 < 2 ^ (e - f)) by (apply Z.pow_pos_nonneg; lia). lia.
Qed.
Print Assumptions C107_text.

(** What every parser reads of it, for a normal mantissa: the number within a relative 2^-41 and half the smallest f64;
    an infinity above the range. *)
Theorem C107_read (s : bool) (k : positive) (e x : Z) (eb : N) : bounded 53 1024 k e = true -> 2 ^ 52 <= Z.pos k -> - 2 ^ 31 <= x < 2 ^ 31 ->
  let M := (inject_Z (Z.pos k) * 2 ^ e * 10 ^ x)%Q in
  exists enc, to_vec (tober_real (RBinary (S754_finite s k e) 10 x eb)) = Ok enc
    /\ ((M < inject_Z (2 ^ 53 - 2) * 2 ^ 971)%Q -> exists r q, real_value r = Some q /\ (Qabs (q - (if s then - M else M)) <= M / 2 ^ 41 + 2 ^ (-1075))%Q
          /\ forall y, bytes_ok y -> all_read real_codec (enc ++ y) y r)
    /\ ((inject_Z (2 ^ 53 + 1) * 2 ^ 971 <= M)%Q -> forall y, bytes_ok y -> all_read real_codec (enc ++ y) y (if s then RNegInfinity else RInfinity)).
Proof.
  intros B Hk Hx M. destruct (C107_text s k e x eb B Hx) as (enc & T & v & y & En & Oe & Se & NT & PV & Cl). exists enc. split; [exact En|].
  set (X := (inject_Z v * 10 ^ (x + y))%Q). pose proof (ten_pos x) as PT. pose proof (dy_pos 1 e ltac:(lia)) as PU.
  assert (EX : (X == inject_Z v * 10 ^ y * 10 ^ x)%Q) by (unfold X; rewrite Qpower_plus by discriminate; ring).
  change (inject_Z (Z.pos k) * 2 ^ e)%Q with (dy (Z.pos k) e) in *. 
  assert (C2 : ((X - M) * 2 ^ 53 <= M /\ (M - X) * 2 ^ 53 <= M)%Q).
  { setoid_replace (2 ^ e)%Q with (dy 1 e) in Cl by (unfold dy; ring). apply dy_opp_abs in Cl as [C1 C2].
    assert (K : ((4503599627370496 # 1) * dy 1 e <= dy (Z.pos k) e)%Q).
    { setoid_replace ((4503599627370496 # 1) * dy 1 e)%Q with (dy (2 ^ 52) e) by (unfold dy; change (inject_Z (2 ^ 52)) with (4503599627370496 # 1)%Q; ring). apply dy_le. exact Hk. }
    change (2 ^ 53)%Q with (9007199254740992 # 1)%Q. rewrite EX. unfold M. set (w := (inject_Z v * 10 ^ y)%Q) in *. set (z := dy (Z.pos k) e) in *. set (u := dy 1 e) in *.
    split.
    - setoid_replace ((w * 10 ^ x - z * 10 ^ x) * (9007199254740992 # 1))%Q with ((w - z) * (9007199254740992 # 1) * 10 ^ x)%Q by ring. apply Qmult_le_compat_r; [|apply Qlt_le_weak, PT].
      clearbody w z u. clear - C1 C2 K. lra.
    - setoid_replace ((z * 10 ^ x - w * 10 ^ x) * (9007199254740992 # 1))%Q with ((z - w) * (9007199254740992 # 1) * 10 ^ x)%Q by ring. apply Qmult_le_compat_r; [|apply Qlt_le_weak, PT].
      clearbody w z u. clear - C1 C2 K. lra. }
  destruct C2 as [C1 C2]. change (2 ^ 53)%Q with (9007199254740992 # 1)%Q in *. clear Cl EX.
  assert (PM : (0 < M)%Q) by (apply Qmult_lt_0_compat; [apply dy_pos; lia|exact PT]).
  pose proof (dy_pos 1 970 ltac:(lia)) as PH.
  assert (E1 : (inject_Z (2 ^ 53 - 2) * 2 ^ 971 == (18014398509481980 # 1) * dy 1 970)%Q).
  { change 971 with (970 + 1). rewrite Qpower_plus by exact two_ne. unfold dy. change (inject_Z (2 ^ 53 - 2)) with (9007199254740990 # 1)%Q. change (2 ^ 1)%Q with 2%Q. change (inject_Z 1) with 1%Q. ring. }
  assert (E2 : (inject_Z (2 ^ 53 + 1) * 2 ^ 971 == (18014398509481986 # 1) * dy 1 970)%Q).
  { change 971 with (970 + 1). rewrite Qpower_plus by exact two_ne. unfold dy. change (inject_Z (2 ^ 53 + 1)) with (9007199254740993 # 1)%Q. change (2 ^ 1)%Q with 2%Q. change (inject_Z 1) with 1%Q. ring. }
  assert (E3 : (inject_Z (2 ^ 54 - 1) * 2 ^ 970 == (18014398509481983 # 1) * dy 1 970)%Q).
  { unfold dy. change (inject_Z (2 ^ 54 - 1)) with (18014398509481983 # 1)%Q. change (inject_Z 1) with 1%Q. ring. }
  assert (RC : read_content (3%N :: T) = real_new (round_decimal s v (x + y))).
  { rewrite read_character by reflexivity. unfold decode_decimal_form. rewrite (ascii_from_utf8 _ (number_ascii _ _ _ _ NT)). change (3 mod 4 =? 1)%N with false. change (3 mod 4 =? 0)%N with false. cbv iota.
    rewrite (proj2 (parse_f64_iff T (round_decimal s v (x + y)))); [reflexivity|]. left. eauto. }
  assert (RT : exists r0, real_new (round_decimal s v (x + y)) = Ok r0).
  { pose proof (round_decimal_ok s v (x + y)) as G. destruct (round_decimal s v (x + y)) as [t|t| |t kf ef]; [|destruct t| |]; try (eexists; reflexivity).
    cbn [f64_ok] in G. destruct (real_new_total t kf ef G) as (? & ? & ? & Rt & _). rewrite Rt. eauto. }
  destruct RT as [r0 RT]. rewrite RT in RC.
  assert (AR : forall y0, bytes_ok y0 -> all_read real_codec (enc ++ y0) y0 r0).
  { intros y0 H0. apply (real_all_read _ _ Universal (3%N :: T)); [apply bytes_ok_app; auto|apply Se|exact RC]. }
  pose proof (C56_text_range (enc ++ []) [] T Universal 3 s v (x + y)) as RG. cbv zeta in RG. fold X in RG.
  destruct RG as [RG1 RG2]; [rewrite app_nil_r; exact Oe|apply Se|reflexivity|right; reflexivity|exact NT|exact PV|].
  rewrite E3 in RG1, RG2. rewrite E1, E2. set (h := dy 1 970) in *. clearbody X M h. split.
  - intros HM. destruct RG1 as (r & q & AR1 & RVq & Hq); [clear - HM C1 C2 PH PM; lra|].
    destruct (AR [] ltac:(constructor)) as (A0 & _). destruct AR1 as (A1 & _). rewrite A0 in A1. injection A1 as <-.
    exists r0, q. split; [exact RVq|]. split; [|exact AR].
    assert (P75 : (0 < 2 ^ (-1075))%Q) by (apply two_pos). 
    assert (D42 : (X / 2 ^ 42 == X * (1 # 4398046511104))%Q) by (change (2 ^ 42)%Q with (4398046511104 # 1)%Q; field).
    assert (D41 : (M / 2 ^ 41 == M * (1 # 2199023255552))%Q) by (change (2 ^ 41)%Q with (2199023255552 # 1)%Q; field).
    rewrite D42 in Hq. rewrite D41. revert Hq P75. generalize (2 ^ (-1075))%Q. intros g Hq Pg.
    assert (Hq2 : (Qabs (q - (if s then - M else M)) <= Qabs (q - (if s then - X else X)) + Qabs (X - M))%Q).
    { destruct s.
      - setoid_replace (q - - M)%Q with (q - - X + (M - X))%Q by ring. eapply Qle_trans; [apply Qabs_triangle|]. setoid_replace (M - X)%Q with (- (X - M))%Q by ring. rewrite Qabs_opp. apply Qle_refl.
      - setoid_replace (q - M)%Q with (q - X + (X - M))%Q by ring. apply Qabs_triangle. }
    assert (Ha : (Qabs (X - M) * (9007199254740992 # 1) <= M)%Q) by (apply Qabs_case; intros; lra).
    clear - Hq Hq2 Ha C1 C2 Pg PM. revert Hq Hq2 Ha. generalize (Qabs (q - (if s then - M else M))), (Qabs (q - (if s then - X else X))), (Qabs (X - M)). intros. lra.
  - intros HM. assert (HX : ((18014398509481983 # 1) * h < X)%Q) by (clear - HM C1 C2 PH PM; lra). specialize (RG2 HX).
    destruct (AR [] ltac:(constructor)) as (A0 & _). destruct RG2 as (A1 & _). rewrite A0 in A1. injection A1 as <-. exact AR.
Qed.
Print Assumptions C107_read.

(** 2.5 with the exponent 3: "2.5E3"; minus 0.3 with the exponent 0: "-0.3E+0", of which every parser reads the number that is held for it. *)
Example C107_case :
  let a := S754_finite false 5629499534213120 (-51) in let b := S754_finite true 5404319552844595 (-54) in
  bounded 53 1024 5629499534213120 (-51) = true /\ 2 ^ 52 <= 5629499534213120 /\ - 2 ^ 31 <= 3 < 2 ^ 31
  /\ (inject_Z 5629499534213120 * 2 ^ (-51) * 10 ^ 3 < inject_Z (2 ^ 53 - 2) * 2 ^ 971)%Q
  /\ to_vec (tober_real (RBinary a 10 3 10)) = Ok [9; 6; 3; 50; 46; 53; 69; 51]%N
  /\ parse_ber real_codec [9; 6; 3; 50; 46; 53; 69; 51; 7]%N = Ok ([7%N], RBinary (f64_of_Z 25) 10 2 10)
  /\ to_vec (tober_real (RBinary b 10 0 2)) = Ok [9; 8; 3; 45; 48; 46; 51; 69; 43; 48]%N
  /\ from_der real_codec [9; 8; 3; 45; 48; 46; 51; 69; 43; 48]%N = Ok ([], RBinary (f64_of_Z (-3)) 10 (-1) 10)
  /\ to_vec (tober_real (RBinary a 10 400 10)) = Ok [9; 8; 3; 50; 46; 53; 69; 52; 48; 48]%N
  /\ (inject_Z (2 ^ 53 + 1) * 2 ^ 971 <= inject_Z 5629499534213120 * 2 ^ (-51) * 10 ^ 400)%Q
  /\ parse_der real_codec [9; 8; 3; 50; 46; 53; 69; 52; 48; 48]%N = Ok ([], RInfinity).
Proof.
  cbv zeta. split; [vm_compute; reflexivity|]. split; [lia|]. split; [lia|]. split; [vm_compute; reflexivity|]. split; [vm_compute; reflexivity|].
  split; [vm_compute; reflexivity|]. split; [vm_compute; reflexivity|]. split; [vm_compute; reflexivity|]. split; [vm_compute; reflexivity|].
  split; [vm_compute; discriminate|]. vm_compute. reflexivity.
Qed.

(** For every finite mantissa, also a subnormal one: the text may be off by half a unit of the mantissa, and so may the number read. *)
Theorem C107_read_all (s : bool) (k : positive) (e x : Z) (eb : N) : bounded 53 1024 k e = true -> - 2 ^ 31 <= x < 2 ^ 31 ->
  let M := (inject_Z (Z.pos k) * 2 ^ e * 10 ^ x)%Q in let D := (2 ^ e * 10 ^ x / 2)%Q in
  exists enc, to_vec (tober_real (RBinary (S754_finite s k e) 10 x eb)) = Ok enc
    /\ ((M + D < inject_Z (2 ^ 54 - 1) * 2 ^ 970)%Q -> exists r q, real_value r = Some q
          /\ (Qabs (q - (if s then - M else M)) <= M / 2 ^ 41 + D + 2 ^ (-1075))%Q
          /\ forall y, bytes_ok y -> all_read real_codec (enc ++ y) y r)
    /\ ((inject_Z (2 ^ 54 - 1) * 2 ^ 970 < M - D)%Q -> forall y, bytes_ok y -> all_read real_codec (enc ++ y) y (if s then RNegInfinity else RInfinity)).
Proof.
  intros B Hx M D. destruct (C107_text s k e x eb B Hx) as (enc & T & v & y & En & Oe & Se & NT & PV & Cl). exists enc. split; [exact En|].
  set (X := (inject_Z v * 10 ^ (x + y))%Q). pose proof (ten_pos x) as PT. pose proof (dy_pos 1 e ltac:(lia)) as PU.
  assert (EX : (X == inject_Z v * 10 ^ y * 10 ^ x)%Q) by (unfold X; rewrite Qpower_plus by discriminate; ring).
  change (inject_Z (Z.pos k) * 2 ^ e)%Q with (dy (Z.pos k) e) in *.
  assert (ED : (D == dy 1 e * 10 ^ x * (1 # 2))%Q) by (unfold D, dy; change (inject_Z 1) with 1%Q; field).
  assert (MD : (2 * D <= M)%Q).
  { rewrite ED. unfold M. assert (dy 1 e <= dy (Z.pos k) e)%Q by (apply dy_le; lia).
    setoid_replace (2 * (dy 1 e * 10 ^ x * (1 # 2)))%Q with (dy 1 e * 10 ^ x)%Q by ring. apply Qmult_le_compat_r; [assumption|apply Qlt_le_weak, PT]. }
  assert (PD : (0 < D)%Q). { rewrite ED. apply Qmult_lt_0_compat; [|reflexivity]. apply Qmult_lt_0_compat; assumption. }
  assert (C2 : (X - M <= D /\ M - X <= D)%Q).
  { setoid_replace (2 ^ e)%Q with (dy 1 e) in Cl by (unfold dy; ring). apply dy_opp_abs in Cl as [C1 C2]. rewrite EX, ED. unfold M.
    set (w := (inject_Z v * 10 ^ y)%Q) in *. set (z := dy (Z.pos k) e) in *. set (u := dy 1 e) in *.
    setoid_replace (u * 10 ^ x * (1 # 2))%Q with (u * (1 # 2) * 10 ^ x)%Q by ring. split.
    - setoid_replace (w * 10 ^ x - z * 10 ^ x)%Q with ((w - z) * 10 ^ x)%Q by ring. apply Qmult_le_compat_r; [|apply Qlt_le_weak, PT].
      clearbody w z u. clear - C1 C2. lra.
    - setoid_replace (z * 10 ^ x - w * 10 ^ x)%Q with ((z - w) * 10 ^ x)%Q by ring. apply Qmult_le_compat_r; [|apply Qlt_le_weak, PT].
      clearbody w z u. clear - C1 C2. lra. }
  destruct C2 as [C1 C2]. clear Cl EX ED.
  assert (RC : read_content (3%N :: T) = real_new (round_decimal s v (x + y))).
  { rewrite read_character by reflexivity. unfold decode_decimal_form. rewrite (ascii_from_utf8 _ (number_ascii _ _ _ _ NT)). change (3 mod 4 =? 1)%N with false. change (3 mod 4 =? 0)%N with false. cbv iota.
    rewrite (proj2 (parse_f64_iff T (round_decimal s v (x + y)))); [reflexivity|]. left. eauto. }
  assert (RT : exists r0, real_new (round_decimal s v (x + y)) = Ok r0).
  { pose proof (round_decimal_ok s v (x + y)) as G. destruct (round_decimal s v (x + y)) as [t|t| |t kf ef]; [|destruct t| |]; try (eexists; reflexivity).
    cbn [f64_ok] in G. destruct (real_new_total t kf ef G) as (? & ? & ? & Rt & _). rewrite Rt. eauto. }
  destruct RT as [r0 RT]. rewrite RT in RC.
  assert (AR : forall y0, bytes_ok y0 -> all_read real_codec (enc ++ y0) y0 r0).
  { intros y0 H0. apply (real_all_read _ _ Universal (3%N :: T)); [apply bytes_ok_app; auto|apply Se|exact RC]. }
  pose proof (C56_text_range (enc ++ []) [] T Universal 3 s v (x + y)) as RG. cbv zeta in RG. fold X in RG.
  destruct RG as [RG1 RG2]; [rewrite app_nil_r; exact Oe|apply Se|reflexivity|right; reflexivity|exact NT|exact PV|].
  set (h := (inject_Z (2 ^ 54 - 1) * 2 ^ 970)%Q) in *. clearbody X M D h. split.
  - intros HM. destruct RG1 as (r & q & AR1 & RVq & Hq); [clear - HM C1 C2; lra|].
    destruct (AR [] ltac:(constructor)) as (A0 & _). destruct AR1 as (A1 & _). rewrite A0 in A1. injection A1 as <-.
    exists r0, q. split; [exact RVq|]. split; [|exact AR].
    assert (P75 : (0 < 2 ^ (-1075))%Q) by (apply two_pos).
    assert (D42 : (X / 2 ^ 42 == X * (1 # 4398046511104))%Q) by (change (2 ^ 42)%Q with (4398046511104 # 1)%Q; field).
    assert (D41 : (M / 2 ^ 41 == M * (1 # 2199023255552))%Q) by (change (2 ^ 41)%Q with (2199023255552 # 1)%Q; field).
    rewrite D42 in Hq. rewrite D41. revert Hq P75. generalize (2 ^ (-1075))%Q. intros g Hq Pg.
    assert (Hq2 : (Qabs (q - (if s then - M else M)) <= Qabs (q - (if s then - X else X)) + Qabs (X - M))%Q).
    { destruct s.
      - setoid_replace (q - - M)%Q with (q - - X + (M - X))%Q by ring. eapply Qle_trans; [apply Qabs_triangle|]. setoid_replace (M - X)%Q with (- (X - M))%Q by ring. rewrite Qabs_opp. apply Qle_refl.
      - setoid_replace (q - M)%Q with (q - X + (X - M))%Q by ring. apply Qabs_triangle. }
    assert (Ha : (Qabs (X - M) <= D)%Q) by (apply Qabs_case; intros; lra).
    clear - Hq Hq2 Ha C1 C2 Pg PD MD. revert Hq Hq2 Ha. generalize (Qabs (q - (if s then - M else M))), (Qabs (q - (if s then - X else X))), (Qabs (X - M)). intros. lra.
  - intros HM. assert (HX : (h < X)%Q) by (clear - HM C1 C2; lra). specialize (RG2 HX).
    destruct (AR [] ltac:(constructor)) as (A0 & _). destruct RG2 as (A1 & _). rewrite A0 in A1. injection A1 as <-. exact AR.
Qed.
Print Assumptions C107_read_all.

(** The smallest f64, 2^-1074, times 10^330 is 4940656.45…, but the text written is that of 5000000: "0.00…05E330".  The number
    read is more than one part in a hundred away. *)
Theorem C107_small_refuted :
  exists enc r q, to_vec (tober_real (RBinary (S754_finite false 1 (-1074)) 10 330 10)) = Ok enc /\ from_der real_codec enc = Ok ([], r)
    /\ real_value r = Some q /\ (q == 5000000 # 1)%Q /\ ((1 # 100) * (1 * 2 ^ (-1074) * 10 ^ 330) < q - 1 * 2 ^ (-1074) * 10 ^ 330)%Q.
Proof.
  eexists. eexists. eexists. split; [vm_compute; reflexivity|]. split; [vm_compute; reflexivity|]. split; [vm_compute; reflexivity|].
  split; vm_compute; reflexivity.
Qed.
Print Assumptions C107_small_refuted.
(** The bound of [C107_read_all] is nearly reached there. *)
Example C107_read_all_case : bounded 53 1024 1 (-1074) = true /\ - 2 ^ 31 <= 330 < 2 ^ 31
  /\ (inject_Z 1 * 2 ^ (-1074) * 10 ^ 330 + 2 ^ (-1074) * 10 ^ 330 / 2 < inject_Z (2 ^ 54 - 1) * 2 ^ 970)%Q
  /\ (5000000 - inject_Z 1 * 2 ^ (-1074) * 10 ^ 330 <= 2 ^ (-1074) * 10 ^ 330 / 2)%Q
  /\ (inject_Z (2 ^ 54 - 1) * 2 ^ 970 < inject_Z 1 * 2 ^ (-1074) * 10 ^ 700 - 2 ^ (-1074) * 10 ^ 700 / 2)%Q
  /\ exists enc, to_vec (tober_real (RBinary (S754_finite false 1 (-1074)) 10 700 10)) = Ok enc /\ parse_ber real_codec enc = Ok ([], RInfinity).
Proof.
  split; [reflexivity|]. split; [lia|]. split; [vm_compute; reflexivity|]. split; [vm_compute; discriminate|]. split; [vm_compute; reflexivity|].
  eexists. split; [vm_compute; reflexivity|]. vm_compute. reflexivity.
Qed.

(** A zero comes back as zero, whatever its exponent. *)
Theorem C107_zero (s : bool) (x : Z) (eb : N) : - 2 ^ 31 <= x < 2 ^ 31 ->
  exists enc, to_vec (tober_real (RBinary (S754_zero s) 10 x eb)) = Ok enc /\ forall y, bytes_ok y -> all_read real_codec (enc ++ y) y RZero.
Proof.
  intros Hx. destruct (exponent_written x) as (ex & Ex & Tx & _). set (T := (if s then [45%N] else []) ++ 48%N :: 69%N :: ex).
  assert (NT : number_text s 0 x T).
  { exists (if s then [45%N] else []), (48%N :: 69%N :: ex). split; [left; reflexivity|]. split; [|reflexivity].
    exists [0%N], [], [], (69%N :: ex), x. split; [repeat constructor|]. split; [constructor|]. split; [discriminate|]. split; [right; auto|]. split; [exact Tx|].
    split; [reflexivity|]. split; [reflexivity|]. cbn. lia. }
  pose proof (number_ascii _ _ _ _ NT) as A.
  assert (Le : (length ex <= 12)%nat).
  { assert (G : forall n : N, (n < 10 ^ 10)%N -> (length (decimal n) <= 10)%nat) by (intros n Hn; apply decimal_short; [lia|exact Hn]).
    rewrite <- Ex, app_length. assert ((length (if (x =? 0)%Z then [43%N] else []) <= 1)%nat) by (destruct (x =? 0); cbn; lia).
    unfold decimal_Z. change (10 ^ 10)%N with 10000000000%N in G. change (2 ^ 31) with 2147483648 in Hx.
    destruct (x <? 0); cbn [length]; [pose proof (G (Z.to_N (- x)) ltac:(lia))|pose proof (G (Z.to_N x) ltac:(lia))]; lia. }
  assert (RC : read_content (3%N :: T) = Ok RZero).
  { rewrite read_character by reflexivity. unfold decode_decimal_form. rewrite (ascii_from_utf8 _ A). change (3 mod 4 =? 1)%N with false. change (3 mod 4 =? 0)%N with false. cbv iota.
    rewrite (proj2 (parse_f64_iff T (round_decimal s 0 x))); [destruct s; reflexivity|]. left. eauto. }
  destruct (written_real (RBinary (S754_zero s) 10 x eb) (3%N :: T)) as (enc & En & Oe & Se).
  - unfold real_write. change (10 =? 10)%N with true. cbv iota. unfold real_text, T. rewrite Ex. destruct s; reflexivity.
  - unfold blen. cbn [length]. unfold T. rewrite app_length. cbn [length]. change (2 ^ 64)%N with 18446744073709551616%N. destruct s; cbn [length]; lia.
  - constructor; [reflexivity|]. eapply Forall_impl; [|exact A]. cbn. intros; lia.
  - exists enc. split; [exact En|]. intros y Hy. apply (real_all_read _ _ Universal (3%N :: T)); [apply bytes_ok_app; auto|apply Se|exact RC].
Qed.
Print Assumptions C107_zero.
Example C107_zero_case : to_vec (tober_real (RBinary (S754_zero true) 10 (-5) 10)) = Ok [9; 6; 3; 45; 48; 69; 45; 53]%N
  /\ from_ber real_codec [9; 6; 3; 45; 48; 69; 45; 53; 1]%N = Ok ([1%N], RZero).
Proof. split; vm_compute; reflexivity. Qed.

(** An infinity or NaN as mantissa is written as a text no parser reads. *)
Theorem C107_refuted :
  exists e1 e2, to_vec (tober_real (RBinary (S754_infinity false) 10 1 10)) = Ok e1 /\ from_ber real_codec e1 = Err EInvalidValue
    /\ to_vec (tober_real (RBinary S754_nan 10 1 10)) = Ok e2 /\ from_der real_codec e2 = Err EInvalidValue.
Proof.
  exists [9; 6; 3; 105; 110; 102; 69; 49]%N, [9; 6; 3; 78; 97; 78; 69; 49]%N. split; [vm_compute; reflexivity|]. split; [vm_compute; reflexivity|]. split; vm_compute; reflexivity.
Qed.
Print Assumptions C107_refuted.
