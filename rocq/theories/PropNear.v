(** C55, numbers that are not small integers: large integers survive, and every number of a wide range comes back close
    to what was written. *)
From Coq Require Import SpecFloat QArith Qpower Qabs Lqa.
From Verif Require Import Base MHeader MEncode SHeader PArith PHeader PEncode MBer SBer PBer
  MInt SInt PCodec PInt MOid SOid POid PTime MText SText PText MReal PFloat SReal PReal PropTime PropReal PDecimal PropDecimal PRound PropReals PropNumber.
Local Open Scope Z_scope.

(** ** Shortest decimal text of a large integer *)

Lemma unit_eq a b p : 0 < p -> Z.abs (a * p - b * p) < p -> a = b.
Proof. intros Hp H. rewrite <- Z.mul_sub_distr_r, Z.abs_mul, (Z.abs_eq p) in H by lia. nia. Qed.
(** An integer closer than a quarter unit to a number of 53 bits is rounded to it. *)
Lemma round_near_int s D k e : normal k -> 1 <= e <= 971 -> 4 * Z.abs (D - Z.pos k * 2 ^ e) < 2 ^ e ->
  binary_round 53 1024 s (Z.to_pos D) 0 = S754_finite s k e.
Proof.
  intros Hk He HD. assert (P : 0 < 2 ^ e) by (apply Z.pow_pos_nonneg; lia).
  assert (P2 : 2 ^ e = 2 * 2 ^ (e - 1)) by (rewrite <- Z.pow_succ_r by lia; f_equal; lia). assert (P1 : 0 < 2 ^ (e - 1)) by (apply Z.pow_pos_nonneg; lia).
  unfold normal in Hk. change (2 ^ 52) with 4503599627370496 in Hk. change (2 ^ 53) with 9007199254740992 in Hk.
  assert (L : 2 ^ 52 * 2 ^ (e - 1) < D) by (change (2 ^ 52) with 4503599627370496; nia).
  assert (U : D < 2 ^ 53 * 2 ^ e) by (change (2 ^ 53) with 9007199254740992; nia).
  set (m := Z.to_pos D). assert (Em : Z.pos m = D) by (apply Z2Pos.id; change (2 ^ 52) with 4503599627370496 in L; nia).
  pose proof (digits_pos m) as (D0 & D1 & D2). rewrite Em in D1, D2. set (d := Z.pos (digits2_pos m)) in *.
  rewrite <- Z.pow_add_r in L, U by lia.
  assert (d = 52 + e \/ d = 53 + e) as Hd.
  { assert (52 + (e - 1) < d) by (apply (Z.pow_lt_mono_r_iff 2); lia). assert (d - 1 < 53 + e) by (apply (Z.pow_lt_mono_r_iff 2); lia). lia. }
  unfold binary_round. fold d. set (f := fexp 53 1024 (d + 0)). assert (Ef : f = d - 53) by (unfold f, fexp, emin; lia).
  assert (SA : shl_align m 0 f = (m, 0)). { unfold shl_align. rewrite Z.sub_0_r. destruct f; [reflexivity|reflexivity|lia]. }
  rewrite SA. destruct (round_aux_any s (Z.pos m) 0 loc_Exact ltac:(lia)) as (q & R & N & Q); [cbn [Zdigits2]; fold d; fold f; lia|].
  cbn [Zdigits2] in R, N, Q. fold d in R, N, Q. fold f in R, N, Q. rewrite Z.sub_0_r in R, N. destruct N as [N _]. destruct (N eq_refl) as [N1 _]. clear N. rewrite Em in *.
  assert (Eq : q = Z.pos k * 2 ^ (e - f)).
  { destruct Hd as [Hd|Hd].
    - replace f with (e - 1) in * by lia. replace (e - (e - 1)) with 1 by lia. change (2 ^ 1) with 2. apply (unit_eq _ _ (2 ^ (e - 1)) P1). lia.
    - replace f with e in * by lia. rewrite Z.sub_diag. change (2 ^ 0) with 1. apply (unit_eq _ _ (2 ^ e) P). lia. }
  destruct Q as [[-> _]|(K & EK & Hf & Q1 & Q2 & Q3)].
  { assert (0 < 2 ^ (e - f)) by (apply Z.pow_pos_nonneg; lia). nia. }
  clear N1 R SA. assert (ED : Z.pos (digits2_pos K) + EK = 53 + e).
  { assert (X : (K * Z.to_pos (2 ^ (EK - f)) = k * Z.to_pos (2 ^ (e - f)))%positive).
    { apply Pos2Z.inj. rewrite !Pos2Z.inj_mul, !Z2Pos.id by (apply Z.pow_pos_nonneg; lia). lia. }
    apply (f_equal (fun p => Z.pos (digits2_pos p))) in X. rewrite !digits_mul_pow in X by lia. rewrite (normal_digits k) in X; [lia|]. exact Hk. }
  unfold canonical_mantissa in Q2. apply Zeq_bool_eq in Q2. rewrite ED in Q2. unfold fexp, emin in Q2. assert (HE : EK = e) by (clear - Q2 He; lia). clear Q2. subst EK.
  rewrite Eq in Q1. apply Z.mul_reg_r in Q1; [|apply Z.pow_nonzero; lia]. injection Q1 as ->.
  rewrite Q3. destruct (Z.leb_spec e 971); [reflexivity|lia].
Qed.

Definition is_datum (x : f64) (k : positive) (e : Z) : bool :=
  match x with S754_finite _ m1 e1 => (m1 =? k)%positive && (e1 =? e) | _ => false end.
Lemma is_datum_round d y k e : 0 <= y -> is_datum (round_decimal false d y) k e = true -> 0 < d /\ round_decimal false d y = S754_finite false k e.
Proof.
  intros Hy H. destruct d as [|p|p]; try discriminate. split; [lia|]. cbn [round_decimal] in *.
  assert (G : is_datum (binary_round 53 1024 false (p * Z.to_pos (10 ^ y)) 0) k e = true -> binary_round 53 1024 false (p * Z.to_pos (10 ^ y)) 0 = S754_finite false k e).
  { destruct (binary_round_form false (p * Z.to_pos (10 ^ y)) 0) as (m' & e' & -> & _ & He).
    destruct (round_aux_any false (Z.pos m') e' loc_Exact ltac:(lia) He) as (q & _ & _ & [[_ ->]|(k1 & e1 & _ & _ & _ & ->)]); [discriminate|].
    destruct (e1 <=? 971); [|discriminate]. cbn [is_datum]. intros X. apply andb_true_iff in X as [X1 X2].
    apply Pos.eqb_eq in X1. apply Z.eqb_eq in X2. now subst. }
  destruct y; [apply G, H|apply G, H|lia].
Qed.
Lemma shortest_form x m e y : let num := Z.pos m * 2 ^ Z.max e 0 * 10 ^ Z.max (- y) 0 in
  let den := 2 ^ Z.max (- e) 0 * 10 ^ Z.max y 0 in let q := num / den in
  forall k ek s, x = S754_finite s k ek ->
  let ok d := is_datum (round_decimal false d y) k ek in
  shortest_with x m e y = if 2 * (num mod den) <=? den then (if ok q then Some q else if ok (q + 1) then Some (q + 1) else None)
    else (if ok (q + 1) then Some (q + 1) else if ok q then Some q else None).
Proof. intros num den q k ek s ->. reflexivity. Qed.

Lemma shortest_loop_ok s k e ys : normal k -> 1 <= e <= 971 -> 0 <= ys -> 10 ^ ys < 2 ^ (e - 1) \/ ys = 0 -> forall n y, ys <= y -> y < ys + Z.of_nat n ->
  exists d y', shortest_loop n (S754_finite s k e) k e y = (d, y') /\ ys <= y' <= y /\ 0 < d <= Z.pos k * 2 ^ e + 1 /\ round_decimal false d y' = S754_finite false k e.
Proof.
  intros Hk He Hs HT. assert (PE : 0 < 2 ^ e) by (apply Z.pow_pos_nonneg; lia). induction n as [|n IH]; intros y Hy Hn; [lia|]. cbn [shortest_loop].
  destruct (shortest_with (S754_finite s k e) k e y) as [d|] eqn:E.
  - exists d, y. split; [reflexivity|]. split; [lia|].
    rewrite (shortest_form _ k e y k e s eq_refl) in E. cbv zeta in E. rewrite (Z.max_l e), (Z.max_r (- y)), (Z.max_r (- e)), (Z.max_l y) in E by lia.
    change (10 ^ 0) with 1 in E. change (2 ^ 0) with 1 in E. rewrite Z.mul_1_r, Z.mul_1_l in E. assert (P : 0 < 10 ^ y) by (apply Z.pow_pos_nonneg; lia).
    assert (L : Z.pos k * 2 ^ e / 10 ^ y <= Z.pos k * 2 ^ e) by (apply Z.div_le_upper_bound; nia). set (q := Z.pos k * 2 ^ e / 10 ^ y) in *.
    assert (G : d <= Z.pos k * 2 ^ e + 1 /\ is_datum (round_decimal false d y) k e = true).
    { repeat match type of E with context [if ?b then _ else _] => destruct b eqn:? end; try discriminate; injection E as <-; (split; [lia|assumption]). }
    destruct G as [G1 G2]. apply is_datum_round in G2 as [G2 G3]; [|lia]. split; [lia|exact G3].
  - destruct (IH (y - 1)) as (d & y' & E' & Hy' & R); [|lia|exists d, y'; split; [exact E'|]; split; [lia|exact R]].
    destruct (Z.eq_dec y ys) as [->|]; [exfalso|lia]. clear IH.
    rewrite (shortest_form _ k e ys k e s eq_refl) in E. cbv zeta in E. rewrite (Z.max_l e), (Z.max_r (- ys)), (Z.max_r (- e)), (Z.max_l ys) in E by lia.
    change (10 ^ 0) with 1 in E. change (2 ^ 0) with 1 in E. rewrite Z.mul_1_r, Z.mul_1_l in E.
    assert (P : 0 < 10 ^ ys) by (apply Z.pow_pos_nonneg; lia). assert (P2 : 2 ^ e = 2 * 2 ^ (e - 1)) by (rewrite <- Z.pow_succ_r by lia; f_equal; lia).
    assert (G : forall d, 2 * Z.abs (d * 10 ^ ys - Z.pos k * 2 ^ e) <= 10 ^ ys -> is_datum (round_decimal false d ys) k e = true).
    { intros d Hd. assert (HX : 4 * Z.abs (d * 10 ^ ys - Z.pos k * 2 ^ e) < 2 ^ e).
      { destruct HT as [HT|HT]; [lia|]. assert (10 ^ ys = 1) by (rewrite HT; reflexivity). lia. }
      unfold normal in Hk. change (2 ^ 52) with 4503599627370496 in Hk. assert (0 < d) by nia.
      assert (X : round_decimal false d ys = binary_round 53 1024 false (Z.to_pos (d * 10 ^ ys)) 0).
      { destruct d as [|p|p]; [lia| |lia]. assert (Y : (p * Z.to_pos (10 ^ ys))%positive = Z.to_pos (Z.pos p * 10 ^ ys)).
        { apply Pos2Z.inj. rewrite Pos2Z.inj_mul, !Z2Pos.id by nia. reflexivity. }
        rewrite <- Y. destruct ys; [reflexivity|reflexivity|lia]. }
      rewrite X, (round_near_int false _ k e) by (auto; lia). cbn [is_datum]. rewrite Pos.eqb_refl, Z.eqb_refl. reflexivity. }
    pose proof (Z.div_mod (Z.pos k * 2 ^ e) (10 ^ ys) ltac:(lia)) as DM. pose proof (Z.mod_pos_bound (Z.pos k * 2 ^ e) (10 ^ ys) P) as MB.
    set (q := Z.pos k * 2 ^ e / 10 ^ ys) in *. set (r := Z.pos k * 2 ^ e mod 10 ^ ys) in *.
    destruct (Z.leb_spec (2 * r) (10 ^ ys)) as [C|C].
    + rewrite (G q) in E by nia. discriminate.
    + rewrite (G (q + 1)) in E by nia. discriminate.
Qed.

Lemma pow_ten_two a : 0 < a -> 10 ^ (a * 3 / 10) < 2 ^ a.
Proof.
  intros Ha. set (t := a * 3 / 10). assert (Ht : 0 <= t /\ 10 * t <= 3 * a) by (unfold t; split; [apply Z.div_pos; lia|]; lia).
  destruct (Z.eq_dec t 0) as [->|]; [apply Z.pow_gt_1; lia|].
  destruct (Z_lt_le_dec (10 ^ t) (2 ^ a)) as [L|L]; [exact L|exfalso].
  assert (X : (2 ^ a) ^ 3 <= (10 ^ t) ^ 3) by (apply Z.pow_le_mono_l; split; [apply Z.pow_nonneg; lia|exact L]).
  rewrite <- !Z.pow_mul_r in X by lia. rewrite (Z.mul_comm t 3), (Z.pow_mul_r 10 3 t) in X by lia. change (10 ^ 3) with 1000 in X.
  assert (Y : 1000 ^ t < 1024 ^ t) by (apply Z.pow_lt_mono_l; lia). change 1024 with (2 ^ 10) in Y. rewrite <- Z.pow_mul_r in Y by lia.
  assert (2 ^ (10 * t) <= 2 ^ (a * 3)) by (apply Z.pow_le_mono_r; lia). lia.
Qed.

Lemma value_zeros n : value_be 10 (repeat 0%N n) = 0%N.
Proof. unfold value_be. induction n as [|n IH]; [reflexivity|exact IH]. Qed.
Lemma digits_repeat n : digits (repeat 0%N n) = repeat 48%N n.
Proof. induction n as [|n IH]; [reflexivity|cbn; now rewrite <- IH]. Qed.
(** The sign only sets the sign. *)
Lemma round_decimal_sign s s' v x k e : round_decimal s v x = S754_finite s k e -> round_decimal s' v x = S754_finite s' k e.
Proof.
  assert (A : forall m e' l, binary_round_aux 53 1024 s m e' l = S754_finite s k e -> binary_round_aux 53 1024 s' m e' l = S754_finite s' k e).
  { intros m e' l. unfold binary_round_aux. destruct (shr_fexp 53 1024 m e' l) as [a b]. destruct (shr_fexp 53 1024 _ b loc_Exact) as [a' b'].
    destruct (shr_m a'); try discriminate. destruct (_ <=? _); [|discriminate]. congruence. }
  destruct v as [|p|p]; try discriminate. cbn [round_decimal]. unfold round_ratio, binary_round. destruct x as [|x|x].
  - destruct (shl_align _ _ _). apply A.
  - destruct (shl_align _ _ _). apply A.
  - destruct (SFdiv_core_binary _ _ _ _ _ _) as [[q e'] l]. apply A.
Qed.
(** What [Display] writes for an integral number: digits of an integer that is rounded to it. *)
Lemma show_integral s k e : bounded 53 1024 k e = true -> has_fract (S754_finite s k e) = false ->
  exists ds, show_f64 (S754_finite s k e) = (if s then [45%N] else []) ++ digits ds /\ ds <> [] /\ Forall (fun d => (d < 10)%N) ds
    /\ (length ds <= 700)%nat /\ let V := Z.of_N (value_be 10 ds) in 0 < V /\ forall s', round_decimal s' V 0 = S754_finite s' k e.
Proof.
  intros B F. destruct (int_of_spec s k e F) as (P & I1 & I2). pose proof (bounded_below k e B (fun s' => F)) as Big.
  unfold show_f64. rewrite F. cbn [negb andb]. rewrite trunc_int.
  assert (Ea : Z.abs (if s then - int_of k e else int_of k e) = int_of k e) by (destruct s; lia). rewrite Ea.
  destruct (Z.ltb_spec (int_of k e) (2 ^ 53)) as [L|L].
  - destruct (decimal_digits (Z.to_N (int_of k e))) as (ds & D & Nd & Fd & Vd). exists ds. split; [now rewrite D|]. split; [exact Nd|]. split; [exact Fd|].
    split.
    { assert ((length (digits ds) <= 16)%nat); [|unfold digits in *; rewrite map_length in *; lia]. rewrite <- D. apply decimal_short; [lia|].
      change (10 ^ N.of_nat 16)%N with 10000000000000000%N. change (2 ^ 53) with 9007199254740992 in L. lia. }
    cbv zeta. rewrite <- Vd, Z2N.id by lia. split; [exact P|]. intros s'.
    destruct (int_of k e) as [|p|p] eqn:Ei; [lia| |lia]. cbn [round_decimal]. change (Z.to_pos (10 ^ 0)) with 1%positive. rewrite Pos.mul_1_r.
    apply binary_round_canonical; [exact B|intros; rewrite I1 by lia; f_equal; f_equal; lia|intros; rewrite I2 by lia; f_equal; f_equal; lia].
  - apply bounded_cases in B as [E1 B]. assert (K : Z.pos k < 2 ^ 53) by (destruct B as [[[_ B] _]|[B _]]; lia).
    assert (E0 : 1 <= e). { destruct (Z_le_gt_dec 1 e) as [G|G]; [exact G|]. specialize (I2 ltac:(lia)). assert (0 < 2 ^ (- e)) by (apply Z.pow_pos_nonneg; lia). nia. }
    destruct B as [[Nk _]|[_ B]]; [|lia]. specialize (I1 ltac:(lia)). rewrite (normal_digits k Nk). cbv zeta.
    set (y0 := Z.max ((53 + e) * 4 / 13) ((53 + e) * 3 / 10) + 1). set (ys := (e - 1) * 3 / 10).
    assert (Y0 : 0 <= ys) by (unfold ys; apply Z.div_pos; lia).
    destruct (shortest_loop_ok s k e ys Nk ltac:(lia) Y0) with (n := 60%nat) (y := y0) as (d & y & -> & Hy & Hd & R).
    { destruct (Z.eq_dec e 1) as [->|]; [right; reflexivity|left; apply pow_ten_two; lia]. }
    { unfold ys, y0. lia. } { unfold ys, y0. change (Z.of_nat 60) with 60. lia. }
    destruct (decimal_digits (Z.to_N d)) as (ds & D & Nd & Fd & Vd). exists (ds ++ repeat 0%N (Z.to_nat y)).
    split. { unfold plain_decimal. destruct (Z.leb_spec 0 y); [|lia]. rewrite D, digits_app, digits_repeat. reflexivity. }
    split. { destruct ds; [congruence|discriminate]. }
    split. { apply Forall_app. split; [exact Fd|]. apply Forall_forall. intros x Hx. apply repeat_spec in Hx. subst. reflexivity. }
    split.
    { rewrite app_length, repeat_length. assert ((length (digits ds) <= 310)%nat).
      { rewrite <- D. apply decimal_short; [lia|]. rewrite <- I1 in Hd. apply N.le_lt_trans with (Z.to_N (2 ^ 1024 + 1)); [apply Z2N.inj_le; lia|vm_compute; reflexivity]. }
      unfold digits in *. rewrite map_length in *. unfold y0 in Hy. lia. }
    cbv zeta. rewrite value_be_app, value_zeros, N.add_0_r, <- Vd, repeat_length, N2Z.inj_mul, N2Z.inj_pow, Z2N.id, nat_N_Z, Z2Nat.id by lia.
    change (Z.of_N 10) with 10. assert (PT : 0 < 10 ^ y) by (apply Z.pow_pos_nonneg; lia). split; [nia|]. intros s'. apply (round_decimal_sign false). rewrite <- R.
    destruct d as [|p|p]; [lia| |lia].
    assert (X : Z.pos p * 10 ^ y = Z.pos (p * Z.to_pos (10 ^ y))) by (rewrite Pos2Z.inj_mul, Z2Pos.id by exact PT; reflexivity). rewrite X.
    cbn [round_decimal]. change (Z.to_pos (10 ^ 0)) with 1%positive. rewrite Pos.mul_1_r. destruct y; [reflexivity|reflexivity|lia].
Qed.

(** ** Text written and read *)

Lemma exponent_written x : exists ex, (if x =? 0 then [43%N] else []) ++ decimal_Z x = ex /\ exponent_text x (69%N :: ex) /\ (Z.abs x < 1000 -> (length ex <= 4)%nat).
Proof.
  destruct (decimal_digits (Z.to_N (Z.abs x))) as (es & D & Ne & Fe & Ve).
  assert (L : Z.abs x < 1000 -> (length (digits es) <= 3)%nat).
  { intros Hx. rewrite <- D. apply decimal_short; [lia|]. change (10 ^ N.of_nat 3)%N with 1000%N. lia. }
  eexists. split; [reflexivity|]. unfold decimal_Z. destruct (Z.ltb_spec x 0) as [H|H].
  - destruct (Z.eqb_spec x 0); [lia|]. replace (- x) with (Z.abs x) by lia. rewrite D. cbn [app]. split.
    + right. exists [69%N], true, [45%N], es. repeat split; auto; [left; reflexivity|left; reflexivity|]. lia.
    + intros Hx. specialize (L Hx). cbn [length]. lia.
  - replace (Z.to_N x) with (Z.to_N (Z.abs x)) by lia. rewrite D. split.
    + right. exists [69%N], false, (if x =? 0 then [43%N] else []), es. repeat split; auto; [left; reflexivity| |lia].
      destruct (x =? 0); [right; auto|left; reflexivity].
    + intros Hx. specialize (L Hx). destruct (x =? 0); cbn [app length]; lia.
Qed.
Lemma written_text s k e x : bounded 53 1024 k e = true -> has_fract (S754_finite s k e) = false -> Z.abs x < 1000 ->
  exists V T, real_write (RBinary (S754_finite s k e) 10 x 10) = Ok (3%N :: T, blen (3%N :: T)) /\ (blen (3%N :: T) < 2 ^ 64)%N /\ bytes_ok (3%N :: T)
    /\ read_content (3%N :: T) = real_new (round_decimal s V x) /\ 0 < V /\ forall s', round_decimal s' V 0 = S754_finite s' k e.
Proof.
  intros B F Hx. destruct (show_integral s k e B F) as (ds & Sh & Nd & Fd & Ld & PV & RV). destruct (exponent_written x) as (ex & Ex & Tx & Lx).
  set (V := Z.of_N (value_be 10 ds)) in *. set (T := (if s then [45%N] else []) ++ digits ds ++ 69%N :: ex). exists V, T.
  assert (NT : number_text s V x T).
  { exists (if s then [45%N] else []), (digits ds ++ 69%N :: ex). split; [left; reflexivity|]. split; [|reflexivity].
    exists ds, [], [], (69%N :: ex), x. split; [exact Fd|]. split; [constructor|]. split; [now rewrite app_nil_r|]. split; [right; auto|]. split; [exact Tx|].
    split; [reflexivity|]. split; [now rewrite app_nil_r|]. cbn. lia. }
  pose proof (number_ascii _ _ _ _ NT) as A.
  split. { unfold real_write. change (10 =? 10)%N with true. cbv iota. unfold real_text. rewrite Sh, Ex, <- app_assoc. reflexivity. }
  split. { unfold blen. cbn [length]. unfold T. rewrite !app_length. unfold digits. rewrite map_length. cbn [length]. specialize (Lx Hx).
    change (2 ^ 64)%N with 18446744073709551616%N. destruct s; cbn [length]; lia. }
  split. { constructor; [reflexivity|]. eapply Forall_impl; [|exact A]. cbn. intros; lia. }
  split; [|split; [exact PV|exact RV]].
  rewrite read_character by reflexivity. unfold decode_decimal_form. rewrite (ascii_from_utf8 _ A). change (3 mod 4 =? 1)%N with false. change (3 mod 4 =? 0)%N with false. cbv iota.
  rewrite (proj2 (parse_f64_iff T (round_decimal s V x))); [reflexivity|]. left. eauto.
Qed.

(** ** Large integers *)

Lemma fmul_one s k e : bounded 53 1024 k e = true -> fmul (S754_finite s k e) (powi (f64_of_Z 10) 0) = S754_finite s k e.
Proof.
  intros B. change (powi (f64_of_Z 10) 0) with (f64_of_Z (2 ^ 0)). rewrite f64_of_pow2 by lia. rewrite fmul_pow2; rewrite Z.add_0_r; [reflexivity|exact B].
Qed.

Lemma normalize_stop n m e : n <> O -> is_tenfold m = false -> normalize_loop n m e = Ok (m, e).
Proof. intros Hn H. destruct n as [|n]; [congruence|]. cbn [normalize_loop]. rewrite H. reflexivity. Qed.
(** Every floating-point number that is an integer not divisible by 10, of whatever size. *)
Theorem C55_large_integers (x : f64) (q : Q) (n : Z) : valid_binary 53 1024 x = true -> f64_value x = Some q -> (q == inject_Z n)%Q -> n mod 10 <> 0 ->
  f64_survives x.
Proof.
  intros V Q E N. destruct x as [s|s| |s k e]; try discriminate.
  { injection Q as <-. exfalso. apply N. rewrite <- (proj1 (inject_Z_injective 0 n) E). reflexivity. }
  cbn [valid_binary] in V. cbn [f64_value] in Q. injection Q as <-.
  assert (F : forall s, has_fract (S754_finite s k e) = false).
  { apply (int_value k e (if s then - n else n)). unfold dy. destruct s; [|exact E]. rewrite inject_Z_opp, <- E. change (Z.neg k) with (- Z.pos k). rewrite inject_Z_opp. ring. }
  assert (I : int_of k e = if s then - n else n).
  { apply inject_Z_injective. rewrite <- (int_of_dy s k e (F s)). unfold dy. destruct s; [|exact E].
    rewrite inject_Z_opp, <- E. change (Z.neg k) with (- Z.pos k). rewrite inject_Z_opp. ring. }
  assert (IN : int_of k e mod 10 <> 0).
  { rewrite I. destruct s; [|exact N]. intros H. apply N. apply Z.mod_opp_l_z in H; [|lia]. rewrite Z.opp_involutive in H. exact H. }
  assert (R : forall s, real_new (S754_finite s k e) = Ok (RBinary (S754_finite s k e) 10 0 10)).
  { intros s'. unfold real_new. rewrite new_loop_stop by (discriminate || apply F). cbn [bind]. rewrite normalize_stop; [reflexivity|discriminate|].
    rewrite (is_tenfold_int s' k e V F). destruct (Z.eqb_spec (int_of k e mod 10) 0); [contradiction|reflexivity]. }
  destruct (written_text s k e 0 V (F s) ltac:(reflexivity)) as (W & T & R1 & R2 & R3 & R4 & _ & RV).
  apply (f64_survives_by _ _ _ (R s) R1 R2 R3). exists (RBinary (S754_finite s k e) 10 0 10). split; [rewrite R4, RV; apply R|].
  cbn [real_f64]. change (Z.of_N 10) with 10. apply fmul_one, V.
Qed.
Print Assumptions C55_large_integers.

(** 2^100 + 2^60, written as 1267650600229382300000000000000. *)
Definition large_text : bytes :=
  [9; 35; 3; 49; 50; 54; 55; 54; 53; 48; 54; 48; 48; 50; 50; 57; 51; 56; 50; 51; 48; 48; 48; 48; 48; 48; 48; 48; 48; 48; 48; 48; 48; 48; 69; 43; 48]%N.
Example C55_large_integers_case :
  let x := S754_finite false 4503599627374592 48 in valid_binary 53 1024 x = true /\ f64_value x = Some (inject_Z 4503599627374592 * 2 ^ 48)%Q
  /\ (inject_Z 4503599627374592 * 2 ^ 48 == inject_Z (2 ^ 100 + 2 ^ 60))%Q /\ (2 ^ 100 + 2 ^ 60) mod 10 <> 0
  /\ to_vec (tober_f64 x) = Ok large_text /\ from_der f64_codec large_text = Ok ([], x).
Proof.
  cbv zeta. split; [vm_compute; reflexivity|]. split; [vm_compute; reflexivity|]. split; [vm_compute; reflexivity|].
  split; [vm_compute; discriminate|]. split; vm_compute; reflexivity.
Qed.

(** ** Numbers in general *)

Definition near (a b : Q) (n : Z) : Prop := (Qabs (a - b) * 2 ^ n <= b)%Q.
Lemma near_scale_by a b n t : (0 < t)%Q -> near a b n -> near (a * t) (b * t) n.
Proof.
  unfold near. intros Ht H. setoid_replace (a * t - b * t)%Q with ((a - b) * t)%Q by ring. rewrite Qabs_Qmult, (Qabs_pos t) by (apply Qlt_le_weak, Ht).
  setoid_replace (Qabs (a - b) * t * 2 ^ n)%Q with (Qabs (a - b) * 2 ^ n * t)%Q by ring. apply Qmult_le_compat_r; [exact H|apply Qlt_le_weak, Ht].
Qed.
Lemma near_scale_left a b n t : (0 < t)%Q -> near a b n -> near (t * a) (t * b) n.
Proof. intros Ht H. apply (near_scale_by a b n t Ht) in H. unfold near in *. rewrite (Qmult_comm t a), (Qmult_comm t b). exact H. Qed.
Lemma near_bounds_by a b c n : (Qabs (a - b) * 2 ^ n <= c)%Q -> ((a - b) * 2 ^ n <= c /\ (b - a) * 2 ^ n <= c)%Q.
Proof.
  intros H. pose proof (two_pos n) as P. split; (eapply Qle_trans; [|exact H]); (apply Qmult_le_compat_r; [|apply Qlt_le_weak, P]).
  - apply Qle_Qabs.
  - setoid_replace (b - a)%Q with (- (a - b))%Q by ring. rewrite <- Qabs_opp. apply Qle_Qabs.
Qed.
Lemma near_bounds a b n : near a b n -> ((a - b) * 2 ^ n <= b /\ (b - a) * 2 ^ n <= b)%Q.
Proof. apply near_bounds_by. Qed.
Lemma near_intro a b n : ((a - b) * 2 ^ n <= b)%Q -> ((b - a) * 2 ^ n <= b)%Q -> near a b n.
Proof.
  unfold near. intros H1 H2. destruct (Qlt_le_dec (a - b) 0) as [L|L].
  - rewrite Qabs_neg by (apply Qlt_le_weak, L). setoid_replace (- (a - b))%Q with (b - a)%Q by ring. exact H2.
  - rewrite Qabs_pos by exact L. exact H1.
Qed.

(** Powers of ten: every exponent for which they are finite has been computed. *)
Definition ten_close (n : Z) : bool :=
  match powi (f64_of_Z 10) n with
  | S754_finite false k e =>
      let a := Z.pos k * 2 ^ Z.max e 0 * 10 ^ Z.max (- n) 0 in let b := 2 ^ Z.max (- e) 0 * 10 ^ Z.max n 0 in
      bounded 53 1024 k e && (Z.abs (a - b) * 2 ^ 44 <=? b)
  | _ => false
  end.
Lemma ten_table : forallb (fun i => ten_close (Z.of_nat i - 307)) (seq 0 615) = true.
Proof. vm_compute. reflexivity. Qed.
Lemma powi_ten_near n : -307 <= n <= 307 -> exists k e, powi (f64_of_Z 10) n = S754_finite false k e /\ bounded 53 1024 k e = true /\ near (dy (Z.pos k) e) (10 ^ n) 44.
Proof.
  intros Hn. pose proof (proj1 (forallb_forall _ _) ten_table (Z.to_nat (n + 307))) as H. cbv beta in H. rewrite Z2Nat.id in H by lia. replace (n + 307 - 307) with n in H by lia.
  assert (I : In (Z.to_nat (n + 307)) (seq 0 615)) by (apply in_seq; lia). specialize (H I). unfold ten_close in H.
  destruct (powi (f64_of_Z 10) n) as [| | |[|] k e]; try discriminate. cbv zeta in H. apply andb_true_iff in H as [B H]. apply Z.leb_le in H.
  exists k, e. split; [reflexivity|]. split; [exact B|].
  set (t := (2 ^ Z.max (- e) 0 * 10 ^ Z.max (- n) 0)%Q). assert (Pt : (0 < t)%Q).
  { unfold t. rewrite <- (Qmult_0_l (10 ^ Z.max (- n) 0)). apply Qmult_lt_r; [apply ten_pos|apply two_pos]. }
  assert (T2 : forall j, 0 <= j -> (inject_Z (2 ^ j) == 2 ^ j)%Q) by (intros; rewrite Zpower_Qpower by assumption; reflexivity).
  assert (T10 : forall j, 0 <= j -> (inject_Z (10 ^ j) == 10 ^ j)%Q) by (intros; rewrite Zpower_Qpower by assumption; reflexivity).
  assert (A : (dy (Z.pos k) e * t == inject_Z (Z.pos k * 2 ^ Z.max e 0 * 10 ^ Z.max (- n) 0))%Q).
  { unfold t, dy. rewrite !inject_Z_mult, T2, T10 by lia.
    setoid_replace (inject_Z (Z.pos k) * 2 ^ e * (2 ^ Z.max (- e) 0 * 10 ^ Z.max (- n) 0))%Q with (inject_Z (Z.pos k) * (2 ^ e * 2 ^ Z.max (- e) 0) * 10 ^ Z.max (- n) 0)%Q by ring.
    rewrite <- Qpower_plus by exact two_ne. replace (e + Z.max (- e) 0) with (Z.max e 0) by lia. reflexivity. }
  assert (C : (10 ^ n * t == inject_Z (2 ^ Z.max (- e) 0 * 10 ^ Z.max n 0))%Q).
  { unfold t. rewrite !inject_Z_mult, T2, T10 by lia. setoid_replace (10 ^ n * (2 ^ Z.max (- e) 0 * 10 ^ Z.max (- n) 0))%Q with (2 ^ Z.max (- e) 0 * (10 ^ n * 10 ^ Z.max (- n) 0))%Q by ring.
    rewrite <- Qpower_plus by discriminate. replace (n + Z.max (- n) 0) with (Z.max n 0) by lia. reflexivity. }
  set (a := Z.pos k * 2 ^ Z.max e 0 * 10 ^ Z.max (- n) 0) in *. set (b := 2 ^ Z.max (- e) 0 * 10 ^ Z.max n 0) in *.
  unfold near. apply (Qmult_le_r _ _ _ Pt). rewrite C.
  setoid_replace (Qabs (dy (Z.pos k) e - 10 ^ n) * 2 ^ 44 * t)%Q with (Qabs (dy (Z.pos k) e - 10 ^ n) * t * 2 ^ 44)%Q by ring.
  rewrite <- (Qabs_pos t) at 1 by (apply Qlt_le_weak, Pt). rewrite <- Qabs_Qmult.
  setoid_replace ((dy (Z.pos k) e - 10 ^ n) * t)%Q with (dy (Z.pos k) e * t - 10 ^ n * t)%Q by ring. rewrite A, C.
  rewrite Zle_Qle in H. rewrite inject_Z_mult in H. rewrite T2 in H by lia.
  setoid_replace (inject_Z a - inject_Z b)%Q with (inject_Z (a - b)) by (unfold Zminus; rewrite inject_Z_plus, inject_Z_opp; reflexivity). exact H.
Qed.

(** The product of two numbers of 53 bits, in the normal range. *)
Lemma fmul_close s k e s' k' e' : bounded 53 1024 k e = true -> bounded 53 1024 k' e' = true ->
  let X := (dy (Z.pos k) e * dy (Z.pos k') e')%Q in (dy 1 (-1022) <= X)%Q -> (X < dy 1 1023)%Q ->
  exists m em, fmul (S754_finite s k e) (S754_finite s' k' e') = S754_finite (xorb s s') m em /\ bounded 53 1024 m em = true /\ near (dy (Z.pos m) em) X 52.
Proof.
  intros B B' X L U. unfold fmul, SFmul. assert (EX : (X == dy (Z.pos (k * k')) (e + e'))%Q).
  { unfold X, dy. rewrite Pos2Z.inj_mul, inject_Z_mult, Qpower_plus by exact two_ne. ring. }
  apply round_aux_close; [lia| | | |exact L|exact U]; [|rewrite EX; apply Qle_refl|rewrite EX; apply dy_lt; lia].
  cbn [Zdigits2]. unfold fexp, emin. apply bounded_cases in B as [_ B]. apply bounded_cases in B' as [_ B'].
  pose proof (digits_pos (k * k')) as (D0 & D1 & D2). set (d := Z.pos (digits2_pos (k * k'))) in *. rewrite Pos2Z.inj_mul in D1, D2.
  assert (2 ^ 52 <= Z.pos k * Z.pos k' -> 53 <= d).
  { intros H. assert (52 < d) by (apply (Z.pow_lt_mono_r_iff 2); lia). lia. }
  unfold normal in *. change (2 ^ 52) with 4503599627370496 in *. destruct B as [[B _]|[_ ->]]; [assert (53 <= d) by (apply H; nia); lia|].
  destruct B' as [[B' _]|[_ ->]]; [assert (53 <= d) by (apply H; nia); lia|lia].
Qed.

(** After multiplications the number is below 2^56. *)
Lemma new_loop_size : forall n s k ek e k' ek' e', bounded 53 1024 k ek = true ->
  new_loop n (S754_finite s k ek) e = Ok (S754_finite s k' ek', e') -> k' = k /\ ek' = ek /\ e' = e \/ (dy (Z.pos k') ek' <= 2 ^ 56)%Q.
Proof.
  induction n as [|n IH]; intros s k ek e k' ek' e' B H; cbn [new_loop] in H; [discriminate|].
  destruct (has_fract (S754_finite s k ek)) eqn:F.
  - pose proof (fract_mag _ _ _ B F) as [_ Fm]. destruct (times_ten s k ek B Fm) as (k1 & e1 & E & B1 & M1 & N1). rewrite E in H.
    apply bind_ok in H as (x & Ex & H). right. destruct (IH _ _ _ _ _ _ _ B1 H) as [(-> & -> & _)|G]; [|exact G].
    assert (S : (dy (Z.pos k) ek <= 2 ^ 52)%Q).
    { apply Qle_trans with (dy 1 52); [|unfold dy; rewrite Qmult_1_l; apply Qle_refl]. unfold mag in Fm. pose proof (digits_pos k) as (D0 & D1 & D2).
      apply Qle_trans with (dy 1 (ek + Z.pos (digits2_pos k))); [rewrite <- dy_pow by lia; apply dy_le; lia|].
      rewrite Z.add_comm. set (t := Z.pos (digits2_pos k) + ek) in *. replace 52 with (t + (52 - t)) by lia. rewrite <- dy_pow by lia. apply dy_le.
      assert (0 < 2 ^ (52 - t)) by (apply Z.pow_pos_nonneg; lia). lia. }
    apply (near_bounds _ _ 53) in N1 as [N1 _]. change (2 ^ 53)%Q with (9007199254740992 # 1)%Q in N1. change (2 ^ 52)%Q with (4503599627370496 # 1)%Q in S.
    change (2 ^ 56)%Q with (72057594037927936 # 1)%Q. set (a := dy (Z.pos k1) e1) in *. set (b := dy (Z.pos k) ek) in *. clearbody a b. lra.
  - injection H as <- <- <-. left. auto.
Qed.

(** [Real::new]: the mantissa is a number of 53 bits and the exponent one for which the power of ten is computed. *)
Lemma real_new_range s k e : bounded 53 1024 k e = true -> (2 ^ (-961) <= dy (Z.pos k) e)%Q -> (dy (Z.pos k) e <= 2 ^ 1023)%Q ->
  exists k' ek' x, real_new (S754_finite s k e) = Ok (RBinary (S754_finite s k' ek') 10 x 10) /\ bounded 53 1024 k' ek' = true
    /\ (forall s, has_fract (S754_finite s k' ek') = false) /\ -307 <= x <= 307 /\ near (dy (Z.pos k') ek' * 10 ^ x) (dy (Z.pos k) e) 43.
Proof.
  intros B Lo Hi. destruct (real_new_near s k e B) as (k' & ek' & x & E & D & P & N & Hx & Near & Ex).
  destruct (real_new_total s k e B) as (k2 & e2 & x2 & E2 & B2 & F2 & _). rewrite E2 in E. injection E as -> -> ->. exists k', ek', x.
  split; [exact E2|]. split; [exact B2|]. split; [exact F2|]. split; [|exact Near].
  assert (M1 : (1 <= dy (Z.pos k') ek')%Q). { rewrite D. change 1%Q with (inject_Z 1). rewrite <- Zle_Qle. lia. }
  split.
  - unfold real_new in E2. destruct (new_loop_ends 399 s k e 0 B) as (k1 & e1 & x1 & R & B1 & F1 & Hx1 & Hsame).
    { pose proof (bounded_digits _ _ B) as [_ M]. change (Z.of_nat 399) with 399. lia. } { change (Z.of_nat 399) with 399. lia. } { change (Z.of_nat 399) with 399. lia. } { lia. }
    change (Z.of_nat 399) with 399 in Hx1. assert (F1' : forall s, has_fract (S754_finite s k1 e1) = false) by (intros s'; exact F1).
    rewrite R in E2. cbn [bind] in E2. destruct (normalize_loop_ends 399 s k1 e1 x1 B1 F1') as (k3 & e3 & j & R' & _ & _ & Hj & _ & _).
    { pose proof (bounded_below _ _ B1 F1') as L. eapply Z.lt_trans; [exact L|]. vm_compute. reflexivity. } { lia. } { change (Z.of_nat 399) with 399. lia. }
    rewrite R' in E2. cbn [bind] in E2. injection E2 as _ _ Ex2.
    destruct (new_loop_near 400 s k e 0 k1 e1 x1 B ltac:(lia) R) as (i & Ei & Hi' & Near1). change (Z.of_nat 400) with 400 in Hi'.
    destruct (new_loop_size 400 s k e 0 k1 e1 x1 B R) as [(_ & _ & X0)|Sz]; [lia|].
    destruct (Z_le_gt_dec i 307) as [I|I]; [lia|exfalso].
    assert (TI : (10 ^ 308 <= inject_Z (10 ^ i))%Q). { change (10 ^ 308)%Q with (inject_Z (10 ^ 308)). rewrite <- Zle_Qle. apply Z.pow_le_mono_r; lia. }
    set (d := dy (Z.pos k) e) in *. set (d1 := dy (Z.pos k1) e1) in *. set (T := inject_Z (10 ^ i)) in *.
    assert (XL : (2 ^ 60 <= T * d)%Q).
    { apply Qle_trans with (10 ^ 308 * 2 ^ (-961))%Q; [vm_compute; discriminate|]. apply Qmult_le_compat_nonneg; split; try assumption; vm_compute; discriminate. }
    apply (near_bounds_by d1 (T * d) (inject_Z i * (T * d)) 52) in Near1 as [_ Near1].
    assert (IX : (inject_Z i * (T * d) <= 399 * (T * d))%Q).
    { apply Qmult_le_compat_r; [change 399%Q with (inject_Z 399); rewrite <- Zle_Qle; lia|]. eapply Qle_trans; [|exact XL]. discriminate. }
    set (X := (T * d)%Q) in *. set (Y := (inject_Z i * X)%Q) in *. clearbody X Y d1. clear - XL Near1 IX Sz.
    change (2 ^ 60)%Q with (1152921504606846976 # 1)%Q in *. change (2 ^ 56)%Q with (72057594037927936 # 1)%Q in *. change (2 ^ 52)%Q with (4503599627370496 # 1)%Q in *. lra.
  - destruct (Z_le_gt_dec x 307) as [I|I]; [exact I|exfalso].
    assert (TI : (10 ^ 308 <= 10 ^ x)%Q).
    { replace x with (308 + (x - 308)) by lia. rewrite Qpower_plus by discriminate. setoid_replace (10 ^ 308)%Q with (10 ^ 308 * 1)%Q at 1 by ring.
      apply Qmult_le_l; [apply ten_pos|]. rewrite <- (Zpower_Qpower 10) by lia. change 1%Q with (inject_Z 1). rewrite <- Zle_Qle.
      assert (0 < 10 ^ (x - 308)) by (apply Z.pow_pos_nonneg; lia). lia. }
    assert (WL : (10 ^ 308 <= dy (Z.pos k') ek' * 10 ^ x)%Q).
    { setoid_replace (10 ^ 308)%Q with (1 * 10 ^ 308)%Q by ring. apply Qmult_le_compat_nonneg; split; try assumption; [discriminate|vm_compute; discriminate]. }
    apply near_bounds in Near as [Near _]. assert (C : ((11 # 10) * 2 ^ 1023 <= 10 ^ 308)%Q) by (vm_compute; discriminate).
    set (W := (dy (Z.pos k') ek' * 10 ^ x)%Q) in *. set (d := dy (Z.pos k) e) in *. pose proof (two_pos 1023) as PC.
    revert PC C Hi WL. generalize (2 ^ 1023)%Q, (10 ^ 308)%Q. intros c t PC C Hi WL. clearbody W d. clear - PC C Hi WL Near.
    change (2 ^ 43)%Q with (8796093022208 # 1)%Q in *. lra.
Qed.

(** From a number to what is read back, by magnitudes. *)
Lemma chain_near (q m v f d p o : Q) : (0 < q)%Q -> near m q 43 -> near m v 52 -> near f v 52 -> near d f 43 -> near p d 44 -> near o p 52 -> near o q 41.
Proof.
  intros Hq H1 H2 H3 H4 H5 H6. apply near_bounds in H1 as [A1 A2], H2 as [B1 B2], H3 as [C1 C2], H4 as [D1 D2], H5 as [E1 E2], H6 as [F1 F2].
  change (2 ^ 43)%Q with (8796093022208 # 1)%Q in *. change (2 ^ 52)%Q with (4503599627370496 # 1)%Q in *. change (2 ^ 44)%Q with (17592186044416 # 1)%Q in *.
  apply near_intro; change (2 ^ 41)%Q with (2199023255552 # 1)%Q; lra.
Qed.

(** An integer and the finite number it is rounded to. *)
Lemma round_int_near s v k ek : 0 < v -> round_decimal s v 0 = S754_finite s k ek -> near (dy (Z.pos k) ek) (inject_Z v) 52.
Proof.
  intros Hv H. destruct v as [|p|p]; [lia| |lia]. cbn [round_decimal] in H. change (Z.to_pos (10 ^ 0)) with 1%positive in H. rewrite Pos.mul_1_r in H.
  destruct (binary_round_form s p 0) as (m & e & R & Ev & He). rewrite R in H. clear R.
  assert (EX : (inject_Z (Z.pos p) == dy (Z.pos m) e)%Q) by (rewrite Ev; unfold dy; change (2 ^ 0)%Q with 1%Q; ring).
  cbn [Zdigits2] in He. pose proof (digits_pos m) as (D0 & D1 & D2). destruct (round_aux_any s (Z.pos m) e loc_Exact ltac:(lia) He) as (q & R & _ & Q).
  cbn [Zdigits2] in R, Q. set (d := Z.pos (digits2_pos m)) in *.
  assert (T2 : 0 < d + e).
  { assert (dy 1 0 < dy 1 (e + d))%Q as X; [|apply dy_one_lt in X; lia].
    apply Qle_lt_trans with (dy (Z.pos m) e); [rewrite <- EX; change (dy 1 0) with (inject_Z 1 * 1)%Q; rewrite Qmult_1_r, <- Zle_Qle; lia|].
    rewrite <- dy_pow by lia. apply dy_lt. exact D2. }
  set (f := fexp 53 1024 (d + e)) in *. assert (Ef : f = d + e - 53) by (unfold f, fexp, emin; lia).
  set (n := f - e) in *. assert (Hn : 0 <= n) by lia. assert (P : 0 < 2 ^ n) by (apply Z.pow_pos_nonneg; lia).
  assert (En : 2 ^ (d - 1) = 2 ^ 52 * 2 ^ n) by (rewrite <- Z.pow_add_r by lia; f_equal; lia).
  pose proof (Z.div_mod (Z.pos m) (2 ^ n) ltac:(lia)) as DM. pose proof (Z.mod_pos_bound (Z.pos m) (2 ^ n) P) as MB.
  set (fl := Z.pos m / 2 ^ n) in *. set (md := Z.pos m mod 2 ^ n) in *.
  destruct Q as [[_ Q]|(k1 & ek1 & Hf & Ek & C & E)]; [congruence|]. rewrite E in H. destruct (ek1 <=? 971); [|discriminate]. injection H as -> ->.
  assert (V : (dy (Z.pos k) ek == dy (q * 2 ^ n) e)%Q).
  { rewrite dy_shift by exact Hn. replace (e + n) with f by lia. rewrite <- Ek, dy_shift by lia. replace (f + (ek - f)) with ek by lia. reflexivity. }
  assert (B1 : q * 2 ^ n <= Z.pos m + 2 ^ n) by nia. assert (B2 : Z.pos m <= q * 2 ^ n + 2 ^ n) by nia.
  apply (dy_le _ _ e) in B1, B2. rewrite dy_plus in B1. rewrite (dy_plus (q * 2 ^ n)) in B2.
  assert (B3 : (dy (2 ^ n) e * 2 ^ 52 <= dy (Z.pos m) e)%Q).
  { rewrite dy_scale. rewrite <- dy_shift by lia. apply dy_le. lia. }
  unfold near. rewrite EX. assert (A : (Qabs (dy (Z.pos k) ek - dy (Z.pos m) e) <= dy (2 ^ n) e)%Q) by (apply Qabs_Qle_condition; rewrite V; lra).
  eapply Qle_trans; [|exact B3]. apply Qmult_le_compat_r; [exact A|]. apply Qlt_le_weak, two_pos.
Qed.

(** A finite number: what is written, what is read from it, and how far that is from the number. *)
Lemma written_read_near s k e : bounded 53 1024 k e = true -> (2 ^ (-960) <= dy (Z.pos k) e)%Q -> (dy (Z.pos k) e <= 2 ^ 1022)%Q ->
  exists r cb r' ko eo, real_new (S754_finite s k e) = Ok r /\ real_write r = Ok (cb, blen cb) /\ (blen cb < 2 ^ 64)%N /\ bytes_ok cb
    /\ read_content cb = Ok r' /\ real_f64 r' = S754_finite s ko eo /\ bounded 53 1024 ko eo = true /\ near (dy (Z.pos ko) eo) (dy (Z.pos k) e) 41.
Proof.
  intros Vx Lo Hi. pose proof (dy_pos (Z.pos k) e ltac:(lia)) as Pq.
  assert (O : forall z, (dy 1 z == 2 ^ z)%Q) by (intros; unfold dy; ring).
  (* orders of the bounds *)
  assert (K1 : (2 ^ (-1022) * 4 <= 2 ^ (-960))%Q) by (vm_compute; discriminate).
  assert (K2 : (2 ^ 1022 * 2 <= 2 ^ 1023)%Q) by (vm_compute; discriminate).
  assert (K3 : (2 ^ (-961) * 2 <= 2 ^ (-960))%Q) by (vm_compute; discriminate).
  pose proof (two_pos (-1022)) as K0. pose proof (two_pos (-961)) as K0'.
  destruct (real_new_range s k e Vx) as (k1 & e1 & x1 & R1 & B1 & F1 & Hx1 & N1).
  { revert Lo K3 K0'. generalize (2 ^ (-961))%Q, (2 ^ (-960))%Q. intros; lra. } { revert Hi K2. generalize (2 ^ 1023)%Q, (2 ^ 1022)%Q. intros; lra. }
  destruct (written_text s k1 e1 x1 B1 (F1 s) ltac:(lia)) as (V & T & W1 & W2 & W3 & W4 & PV & RV).
  pose proof (round_int_near s V k1 e1 PV (RV s)) as N2. apply (near_scale_by _ _ _ (10 ^ x1) (ten_pos x1)) in N2.
  set (q0 := dy (Z.pos k) e) in *. set (m := (dy (Z.pos k1) e1 * 10 ^ x1)%Q) in *. set (v := (inject_Z V * 10 ^ x1)%Q) in *.
  assert (RV1 : (2 ^ (-1022) <= v)%Q /\ (v < 2 ^ 1023)%Q).
  { apply near_bounds in N1 as [A1 A2], N2 as [A3 A4]. change (2 ^ 43)%Q with (8796093022208 # 1)%Q in *. change (2 ^ 52)%Q with (4503599627370496 # 1)%Q in *.
    revert K0 Lo Hi K1 K2. generalize (2 ^ (-1022))%Q, (2 ^ (-960))%Q, (2 ^ 1023)%Q, (2 ^ 1022)%Q. intros. split; lra. }
  destruct (round_decimal_close s V x1 PV (proj1 RV1) (proj2 RV1)) as (kf & ef & RF & BF & N3). fold v in N3. change (near (dy (Z.pos kf) ef) v 52) in N3.
  set (f := dy (Z.pos kf) ef) in *.
  destruct (real_new_range s kf ef BF) as (k2 & e2 & x2 & R2 & B2 & F2 & Hx2 & N4).
  { fold f. apply near_bounds in N1 as [A1 A2], N2 as [A3 A4], N3 as [A5 A6]. change (2 ^ 43)%Q with (8796093022208 # 1)%Q in *. change (2 ^ 52)%Q with (4503599627370496 # 1)%Q in *.
    revert K0' Lo Hi K3. generalize (2 ^ (-961))%Q, (2 ^ (-960))%Q, (2 ^ 1022)%Q. intros. lra. }
  { fold f. apply near_bounds in N1 as [A1 A2], N2 as [A3 A4], N3 as [A5 A6]. change (2 ^ 43)%Q with (8796093022208 # 1)%Q in *. change (2 ^ 52)%Q with (4503599627370496 # 1)%Q in *.
    revert Lo Hi K2. generalize (2 ^ 1023)%Q, (2 ^ (-960))%Q, (2 ^ 1022)%Q. intros. lra. }
  fold f in N4. destruct (powi_ten_near x2 Hx2) as (kp & ep & RP & BP & N5).
  pose proof (dy_pos (Z.pos k2) e2 ltac:(lia)) as P2. apply (near_scale_left _ _ _ (dy (Z.pos k2) e2) P2) in N5.
  set (d := (dy (Z.pos k2) e2 * 10 ^ x2)%Q) in *.
  destruct (fmul_close s k2 e2 false kp ep B2 BP) as (ko & eo & RO & BO & N6).
  { rewrite O. apply near_bounds in N1 as [A1 A2], N2 as [A3 A4], N3 as [A5 A6], N4 as [A7 A8], N5 as [A9 A10].
    change (2 ^ 43)%Q with (8796093022208 # 1)%Q in *. change (2 ^ 52)%Q with (4503599627370496 # 1)%Q in *. change (2 ^ 44)%Q with (17592186044416 # 1)%Q in *.
    revert K0 Lo Hi K1. generalize (2 ^ (-1022))%Q, (2 ^ (-960))%Q, (2 ^ 1022)%Q. intros. lra. }
  { rewrite O. apply near_bounds in N1 as [A1 A2], N2 as [A3 A4], N3 as [A5 A6], N4 as [A7 A8], N5 as [A9 A10].
    change (2 ^ 43)%Q with (8796093022208 # 1)%Q in *. change (2 ^ 52)%Q with (4503599627370496 # 1)%Q in *. change (2 ^ 44)%Q with (17592186044416 # 1)%Q in *.
    revert Lo Hi K2. generalize (2 ^ 1023)%Q, (2 ^ (-960))%Q, (2 ^ 1022)%Q. intros. lra. }
  rewrite xorb_false_r in RO.
  pose proof (chain_near q0 m v f d _ _ Pq N1 N2 N3 N4 N5 N6) as N7.
  exists (RBinary (S754_finite s k1 e1) 10 x1 10), (3%N :: T), (RBinary (S754_finite s k2 e2) 10 x2 10), ko, eo.
  split; [exact R1|]. split; [exact W1|]. split; [exact W2|]. split; [exact W3|]. split; [rewrite W4, RF; exact R2|].
  split; [cbn [real_f64]; change (Z.of_N 10) with 10; rewrite RP; exact RO|]. split; [exact BO|exact N7].
Qed.

(** What is written reads back, with every parser and whatever follows, as a number within [q] 2^-41 of the number [q] of [x]. *)
Definition f64_survives_near (x : f64) (q : Q) : Prop :=
  exists enc x' q', to_vec (tober_f64 x) = Ok enc /\ bytes_ok enc /\ valid_binary 53 1024 x' = true /\ f64_value x' = Some q'
    /\ (Qabs (q' - q) * 2 ^ 41 <= Qabs q)%Q /\ forall y, bytes_ok y -> all_read f64_codec (enc ++ y) y x'.

Theorem C55_near (x : f64) (q : Q) : valid_binary 53 1024 x = true -> f64_value x = Some q -> (2 ^ (-960) <= Qabs q)%Q -> (Qabs q <= 2 ^ 1022)%Q ->
  f64_survives_near x q.
Proof.
  intros Vx Q Lo Hi. destruct x as [s|s| |s k e]; try discriminate.
  { injection Q as <-. exfalso. revert Lo. vm_compute. intros H. apply H. reflexivity. }
  cbn [valid_binary] in Vx. cbn [f64_value] in Q. injection Q as <-.
  assert (Sg : forall (p : positive) z, (inject_Z (if s then Z.neg p else Z.pos p) * 2 ^ z == (if s then - (1) else 1) * dy (Z.pos p) z)%Q).
  { intros p z. unfold dy. destruct s; [|ring]. change (Z.neg p) with (- Z.pos p). rewrite inject_Z_opp. ring. }
  assert (Ab : (Qabs (inject_Z (if s then Z.neg k else Z.pos k) * 2 ^ e) == dy (Z.pos k) e)%Q).
  { rewrite Sg, Qabs_Qmult, (Qabs_pos (dy _ _)) by (apply Qlt_le_weak, dy_pos; lia). destruct s; [change (Qabs (- (1)))%Q with 1%Q|change (Qabs 1)%Q with 1%Q]; ring. }
  rewrite Ab in Lo, Hi.
  destruct (written_read_near s k e Vx Lo Hi) as (r & cb & r' & ko & eo & R1 & W1 & W2 & W3 & W4 & W5 & BO & N7).
  destruct (written_real _ _ W1 W2 W3) as (enc & En & Oe & Se).
  exists enc, (S754_finite s ko eo), (inject_Z (if s then Z.neg ko else Z.pos ko) * 2 ^ eo)%Q.
  split; [unfold tober_f64; rewrite R1; exact En|]. split; [exact Oe|]. split; [exact BO|]. split; [reflexivity|]. split.
  - rewrite Ab. setoid_replace (inject_Z (if s then Z.neg ko else Z.pos ko) * 2 ^ eo - inject_Z (if s then Z.neg k else Z.pos k) * 2 ^ e)%Q
      with ((if s then - (1) else 1) * (dy (Z.pos ko) eo - dy (Z.pos k) e))%Q by (rewrite !Sg; ring).
    rewrite Qabs_Qmult. assert (S1 : (Qabs (if s then - (1) else 1) == 1)%Q) by (destruct s; reflexivity). rewrite S1, Qmult_1_l. exact N7.
  - intros y Hy. eapply f64_all_read; [|apply Se | exact W4 | exact W5]. apply bytes_ok_app. split; assumption.
Qed.
Print Assumptions C55_near.

(** 0.3 comes back as the next number. *)
Example C55_near_case :
  let x := S754_finite false 5404319552844595 (-54) in valid_binary 53 1024 x = true /\ f64_value x = Some (inject_Z 5404319552844595 * 2 ^ (-54))%Q
  /\ (2 ^ (-960) <= Qabs (inject_Z 5404319552844595 * 2 ^ (-54)))%Q /\ (Qabs (inject_Z 5404319552844595 * 2 ^ (-54)) <= 2 ^ 1022)%Q
  /\ to_vec (tober_f64 x) = Ok [9; 5; 3; 51; 69; 45; 49]%N
  /\ from_der f64_codec [9; 5; 3; 51; 69; 45; 49]%N = Ok ([], S754_finite false 5404319552844596 (-54)).
Proof.
  cbv zeta. split; [vm_compute; reflexivity|]. split; [vm_compute; reflexivity|]. split; [vm_compute; discriminate|]. split; [vm_compute; discriminate|].
  split; vm_compute; reflexivity.
Qed.

(** Outside the range the number can be lost: 1.2345678901234567e-300, a normal number, is written as 1234567890123456E-315
    and comes back as 0 (10 to the power -315 is computed as the reciprocal of an infinity). *)
Theorem C55_small_lost_refuted :
  exists x enc q, valid_binary 53 1024 x = true /\ f64_value x = Some q /\ (2 ^ (-1022) < q)%Q /\ to_vec (tober_f64 x) = Ok enc
    /\ from_der f64_codec enc = Ok ([], S754_zero false).
Proof.
  exists (S754_finite false 7446984136755464 (-1049)),
    [9; 22; 3; 49; 50; 51; 52; 53; 54; 55; 56; 57; 48; 49; 50; 51; 52; 53; 54; 69; 45; 51; 49; 53]%N, (inject_Z 7446984136755464 * 2 ^ (-1049))%Q.
  split; [vm_compute; reflexivity|]. split; [reflexivity|]. split; [vm_compute; reflexivity|]. split; vm_compute; reflexivity.
Qed.
Print Assumptions C55_small_lost_refuted.
