(** C56 for the character forms over the whole range: tiny and huge numbers. *)
From Coq Require Import SpecFloat QArith Qpower Qabs Lqa.
From Verif Require Import Base MHeader MEncode SHeader PArith PHeader PEncode MBer SBer PBer
  MInt SInt PCodec PInt MOid SOid POid PTime MText SText PText MReal PFloat SReal PReal PropTime PropReal PDecimal PropDecimal PRound PropReals PropNumber PropNear PNearest.
Local Open Scope Z_scope.

(** A text of a number below the middle between the largest f64 and 2^1024 is held within a relative 2^-42 and half the
    smallest f64; a text of a number above it is held as an infinity. *)
Theorem C56_text_range (i rem s : bytes) (c : class) (b : N) (neg : bool) (v x : Z) :
  bytes_ok i -> starts_with_object c false 9 (b :: s) i rem -> (b < 64)%N -> (b mod 4 = 2 \/ b mod 4 = 3)%N -> number_text neg v x s -> 0 < v ->
  let X := (inject_Z v * 10 ^ x)%Q in
  ((X < inject_Z (2 ^ 54 - 1) * 2 ^ 970)%Q ->
    exists r q, all_read real_codec i rem r /\ real_value r = Some q /\ (Qabs (q - (if neg then - X else X)) <= X / 2 ^ 42 + 2 ^ (-1075))%Q)
  /\ ((inject_Z (2 ^ 54 - 1) * 2 ^ 970 < X)%Q -> all_read real_codec i rem (if neg then RNegInfinity else RInfinity)).
Proof.
  intros Hi HS Hb B T Hv X.
  assert (R : read_content (b :: s) = real_new (round_decimal neg v x)).
  { rewrite read_character by exact Hb. unfold decode_decimal_form. rewrite (ascii_from_utf8 _ (number_ascii _ _ _ _ T)).
    destruct (N.eqb_spec (b mod 4) 1) as [Y|_]; [lia|]. destruct (N.eqb_spec (b mod 4) 0) as [Y|_]; [lia|].
    rewrite (proj2 (parse_f64_iff s (round_decimal neg v x))); [reflexivity|]. left. eauto. }
  assert (AR : forall r, real_new (round_decimal neg v x) = Ok r -> all_read real_codec i rem r).
  { intros r E. apply (real_all_read i rem c (b :: s)); [exact Hi|exact HS|]. rewrite R. exact E. }
  clear R HS T Hi Hb B.
  assert (PX : (0 < X)%Q) by (apply Qmult_lt_0_compat; [change 0%Q with (inject_Z 0); rewrite <- Zlt_Qlt; exact Hv|apply ten_pos]).
  destruct (round_decimal_nearest neg v x Hv) as (q & f & F & Q0 & N & L & U & C). fold X in N, L, U. apply dy_opp_abs in N as [N2 N3].
  change (inject_Z (2 ^ 54 - 1) * 2 ^ 970)%Q with (dy (2 ^ 54 - 1) 970).
  assert (D970 : forall z, (dy z 970 == inject_Z z * dy 1 970)%Q) by (intros; unfold dy; change (inject_Z 1) with 1%Q; ring).
  rewrite D970. pose proof (dy_pos 1 970 ltac:(lia)) as PH. 
  assert (D971 : forall z, (dy z 971 == inject_Z z * 2 * dy 1 970)%Q).
  { intros z. change 971 with (970 + 1). rewrite <- dy_shift by lia. rewrite D970, inject_Z_mult. reflexivity. }
  set (h := dy 1 970) in *. change (inject_Z (2 ^ 54 - 1)) with (18014398509481983 # 1)%Q.
  assert (Dq : forall kf ef, f <= ef -> Z.pos kf * 2 ^ (ef - f) = q -> (dy (Z.pos kf) ef == dy q f)%Q).
  { intros kf ef Hf <-. rewrite dy_shift by lia. replace (f + (ef - f)) with ef by lia. reflexivity. }
  assert (Mono : forall a y z, 0 <= a -> y <= z -> (dy a y <= dy a z)%Q).
  { intros a y z Ha Hyz. replace z with (y + (z - y)) by lia. rewrite <- dy_shift by lia. apply dy_le. assert (0 < 2 ^ (z - y)) by (apply Z.pow_pos_nonneg; lia). nia. }
  assert (Dd : forall kf ef, canonical_mantissa 53 1024 kf ef = true -> Z.pos kf < 2 ^ 53 /\ (971 < ef -> 2 ^ 52 <= Z.pos kf)).
  { intros kf ef Cf. unfold canonical_mantissa in Cf. apply Zeq_bool_eq in Cf. unfold fexp, emin in Cf. pose proof (digits_pos kf) as (D0 & D3 & D4). split.
    - assert (2 ^ Z.pos (digits2_pos kf) <= 2 ^ 53) by (apply Z.pow_le_mono_r; lia). lia.
    - intros Hef. assert (G : Z.pos (digits2_pos kf) = 53) by lia. rewrite G in D3. exact D3. }
  split.
  - intros HX.
    assert (Hf : f <= 971).
    { destruct (Z_le_gt_dec f 971) as [G|G]; [exact G|exfalso]. destruct L as [L|L]; [lia|].
      assert (G2 : (dy (2 ^ 52) 972 <= X)%Q) by (eapply Qle_trans; [apply (Mono (2 ^ 52) 972 f); lia|exact L]).
      change 972 with (971 + 1) in G2. rewrite <- dy_shift in G2 by lia. rewrite D971 in G2. change (inject_Z (2 ^ 52 * 2 ^ 1)) with (9007199254740992 # 1)%Q in G2.
      clear - HX G2 PH. revert HX G2 PH. generalize X, h. intros. lra. }
    destruct C as [[C1 C2]|(kf & ef & Hef & Eqf & Cf & C)].
    + exists RZero, 0%Q. split; [apply AR; rewrite C2; reflexivity|]. split; [reflexivity|]. subst q.
      assert (Z0 : (dy 0 f == 0)%Q) by (unfold dy; ring). rewrite Z0 in N2, N3.
      assert (f = -1074) as ->.
      { destruct L as [L|L]; [exact L|exfalso]. assert (E52 : (dy (2 ^ 52) f == dy 1 f * (4503599627370496 # 1))%Q) by (unfold dy; change (inject_Z (2 ^ 52)) with (4503599627370496 # 1)%Q; ring).
        rewrite E52 in L. pose proof (dy_pos 1 f ltac:(lia)) as PU. clear - L PU N3. revert L PU N3. generalize X, (dy 1 f). intros. lra. }
      assert (E : (Qabs (0 - (if neg then - X else X)) == X)%Q).
      { destruct neg; [rewrite Qabs_pos; [ring|lra]|rewrite Qabs_neg; [ring|lra]]. }
      rewrite E. assert (E2 : (dy 1 (-1074) == 2 * 2 ^ (-1075))%Q) by (vm_compute; reflexivity). rewrite E2 in N3.
      assert (0 <= X / 2 ^ 42)%Q by (apply Qle_shift_div_l; [reflexivity|lra]). clear - N3 H. revert N3 H. generalize (2 ^ (-1075))%Q, (X / 2 ^ 42)%Q. intros. lra.
    + pose proof (Dq kf ef Hef Eqf) as Df. destruct (Dd kf ef Cf) as [_ Hk].
      assert (Hfe : ef <= 971).
      { destruct (Z_le_gt_dec ef 971) as [G|G]; [exact G|exfalso].
        assert (G2 : (dy (2 ^ 52) 972 <= dy q f)%Q).
        { rewrite <- Df. eapply Qle_trans; [apply (Mono (2 ^ 52) 972 ef); lia|]. apply dy_le. apply Hk. lia. }
        change 972 with (971 + 1) in G2. rewrite <- dy_shift in G2 by lia. rewrite D971 in G2. change (inject_Z (2 ^ 52 * 2 ^ 1)) with (9007199254740992 # 1)%Q in G2.
        pose proof (Mono 1 f 971 ltac:(lia) Hf) as G3. rewrite D971 in G3. change (inject_Z 1) with 1%Q in G3.
        clear - HX G2 G3 PH N2. revert HX G2 G3 PH N2. generalize X, h, (dy q f), (dy 1 f). intros. lra. }
      replace (ef <=? 971) with true in C by lia. pose proof (round_decimal_ok neg v x) as BF. rewrite C in BF. cbn [f64_ok] in BF.
      destruct (real_new_near neg kf ef BF) as (k' & e' & y & E' & _ & _ & _ & _ & N4 & _).
      exists (RBinary (S754_finite neg k' e') 10 y 10), (inject_Z (if neg then Z.neg k' else Z.pos k') * 2 ^ e' * inject_Z (Z.of_N 10) ^ y)%Q.
      split; [apply AR; rewrite C; exact E'|]. split; [reflexivity|].
      change (inject_Z (Z.of_N 10)) with 10%Q. set (D := (dy (Z.pos k') e' * 10 ^ y)%Q) in *.
      assert (A : (Qabs (inject_Z (if neg then Z.neg k' else Z.pos k') * 2 ^ e' * 10 ^ y - (if neg then - X else X)) == Qabs (D - X))%Q).
      { unfold D, dy. destruct neg; [|reflexivity]. change (Z.neg k') with (- Z.pos k'). rewrite inject_Z_opp, <- Qabs_opp.
        apply Qabs_wd. ring. }
      rewrite A. change (near D (dy (Z.pos kf) ef) 43) in N4. apply near_bounds in N4 as [A7 A8]. rewrite Df in A7, A8.
      change (2 ^ 43)%Q with (8796093022208 # 1)%Q in *. pose proof (two_pos (-1075)) as PU.
      assert (PQ : (dy 1 f <= dy q f)%Q).
      { apply dy_le. rewrite <- Eqf. assert (0 < 2 ^ (ef - f)) by (apply Z.pow_pos_nonneg; lia). nia. }
      assert (Ed : (X / 2 ^ 42 == X * (1 # 4398046511104))%Q) by (change (2 ^ 42)%Q with (4398046511104 # 1)%Q; field). rewrite Ed.
      destruct L as [-> |L].
      * assert (E2 : (dy 1 (-1074) == 2 * 2 ^ (-1075))%Q) by (vm_compute; reflexivity). rewrite E2 in N2, N3, PQ.
        clear - N2 N3 PQ A7 A8 PU PX. revert N2 N3 PQ A7 A8 PU PX. generalize (2 ^ (-1075))%Q, (dy q (-1074)), X, D. intros. apply Qabs_case; intros; lra.
      * assert (E52 : (dy (2 ^ 52) f == dy 1 f * (4503599627370496 # 1))%Q) by (unfold dy; change (inject_Z (2 ^ 52)) with (4503599627370496 # 1)%Q; ring).
        rewrite E52 in L. clear - N2 N3 L A7 A8 PU PX. revert N2 N3 L A7 A8 PU PX. generalize (2 ^ (-1075))%Q, (dy q f), X, D, (dy 1 f). intros. apply Qabs_case; intros; lra.
  - intros HX.
    assert (Hf : 971 <= f).
    { destruct (Z_le_gt_dec 971 f) as [G|G]; [exact G|exfalso].
      assert (G2 : (X < dy (2 ^ 53) 970)%Q) by (eapply Qlt_le_trans; [exact U|apply (Mono (2 ^ 53) f 970); lia]).
      rewrite D970 in G2. change (inject_Z (2 ^ 53)) with (9007199254740992 # 1)%Q in G2. clear - HX G2 PH. revert HX G2 PH. generalize X, h. intros. lra. }
    assert (Hq : f = 971 -> 2 ^ 53 <= q).
    { intros ->. destruct (Z_le_gt_dec (2 ^ 53) q) as [G|G]; [exact G|exfalso].
      assert (G2 : (dy q 971 <= dy (2 ^ 53 - 1) 971)%Q) by (apply dy_le; lia). rewrite (D971 (2 ^ 53 - 1)) in G2. rewrite (D971 1) in N3. change (inject_Z (2 ^ 53 - 1)) with (9007199254740991 # 1)%Q in G2. change (inject_Z 1) with 1%Q in N3.
      clear - HX G2 N3 PH. revert HX G2 N3 PH. generalize X, h, (dy q 971). intros. lra. }
    apply AR. destruct C as [[C1 C2]|(kf & ef & Hef & Eqf & Cf & C)].
    + exfalso. subst q. destruct (Z.eq_dec f 971) as [G|G]; [specialize (Hq G); lia|]. destruct L as [L|L]; [lia|].
      assert (Z0 : (dy 0 f == 0)%Q) by (unfold dy; ring). rewrite Z0 in N2, N3.
      assert (E52 : (dy (2 ^ 52) f == dy 1 f * (4503599627370496 # 1))%Q) by (unfold dy; change (inject_Z (2 ^ 52)) with (4503599627370496 # 1)%Q; ring).
      rewrite E52 in L. pose proof (dy_pos 1 f ltac:(lia)) as PU. clear - L PU N3. revert L PU N3. generalize X, (dy 1 f). intros. lra.
    + destruct (Dd kf ef Cf) as [Hk _]. assert (971 < ef).
      { destruct (Z_lt_le_dec 971 ef) as [G|G]; [exact G|exfalso]. assert (f = 971) by lia. assert (ef = 971) by lia. subst f ef. specialize (Hq eq_refl).
        change (2 ^ (971 - 971)) with 1 in Eqf. lia. }
      replace (ef <=? 971) with false in C by lia. rewrite C. destruct neg; reflexivity.
Qed.
Print Assumptions C56_text_range.

(** 1E-400 is held as 0 and -2E308 as minus infinity; 3E-324 as the smallest number, 5E-324. *)
Example C56_text_range_case :
  let a := [49; 69; 45; 52; 48; 48]%N in let z := [45; 50; 69; 51; 48; 56]%N in let m := [51; 69; 45; 51; 50; 52]%N in
  number_text false 1 (-400) a /\ (inject_Z 1 * 10 ^ (-400) < inject_Z (2 ^ 54 - 1) * 2 ^ 970)%Q
  /\ number_text true 2 308 z /\ (inject_Z (2 ^ 54 - 1) * 2 ^ 970 < inject_Z 2 * 10 ^ 308)%Q
  /\ number_text false 3 (-324) m
  /\ parse_der real_codec (9 :: 7 :: 3 :: a)%N = Ok ([], RZero) /\ parse_ber real_codec (9 :: 7 :: 3 :: z)%N = Ok ([], RNegInfinity)
  /\ parse_der real_codec (9 :: 7 :: 3 :: m)%N = Ok ([], RBinary (f64_of_Z 4940656458412465) 10 (-339) 10).
Proof.
  cbv zeta. split; [|split; [vm_compute; reflexivity|split; [|split; [vm_compute; reflexivity|split; [|repeat split; vm_compute; reflexivity]]]]].
  - exists [], [49; 69; 45; 52; 48; 48]%N. split; [left; reflexivity|]. split; [|reflexivity].
    exists [1%N], [], [], [69; 45; 52; 48; 48]%N, (-400). repeat split; [repeat constructor|constructor|discriminate|right; auto|].
    right. exists [69%N], true, [45%N], [4; 0; 0]%N. repeat split; [left; reflexivity|left; reflexivity|discriminate|repeat constructor].
  - exists [45%N], [50; 69; 51; 48; 56]%N. split; [left; reflexivity|]. split; [|reflexivity].
    exists [2%N], [], [], [69; 51; 48; 56]%N, 308. repeat split; [repeat constructor|constructor|discriminate|right; auto|].
    right. exists [69%N], false, [], [3; 0; 8]%N. repeat split; [left; reflexivity|left; reflexivity|discriminate|repeat constructor].
  - exists [], [51; 69; 45; 51; 50; 52]%N. split; [left; reflexivity|]. split; [|reflexivity].
    exists [3%N], [], [], [69; 45; 51; 50; 52]%N, (-324). repeat split; [repeat constructor|constructor|discriminate|right; auto|].
    right. exists [69%N], true, [45%N], [3; 2; 4]%N. repeat split; [left; reflexivity|left; reflexivity|discriminate|repeat constructor].
Qed.
