(** C74 for the character form: what is read from a text is always written, and what that reads back as. *)
From Coq Require Import SpecFloat QArith Qpower Qabs Lqa.
From Verif Require Import Base MHeader MEncode SHeader PArith PHeader PEncode MBer SBer PBer
  MInt SInt PCodec PInt MOid SOid POid PTime MText SText PText MReal PFloat SReal PReal PropTime PropReal PDecimal PropDecimal PRound PropReals PropNumber PropNear PNearest.
Local Open Scope Z_scope.

(** The number of a finite value. *)
Definition signed (s : bool) (q : Q) : Q := if s then (- q)%Q else q.
#[global] Instance signed_eq s : Morphisms.Proper (Qeq ==> Qeq)%signature (signed s).
Proof. intros a b E. unfold signed. destruct s; rewrite E; reflexivity. Qed.
Lemma finite_value s k e x b : real_value (RBinary (S754_finite s k e) 10 x b) = Some (inject_Z (if s then Z.neg k else Z.pos k) * 2 ^ e * inject_Z 10 ^ x)%Q
  /\ (inject_Z (if s then Z.neg k else Z.pos k) * 2 ^ e * inject_Z 10 ^ x == signed s (dy (Z.pos k) e * 10 ^ x))%Q.
Proof.
  split; [reflexivity|]. unfold dy, signed. change (inject_Z 10) with 10%Q. destruct s; [|reflexivity]. change (Z.neg k) with (- Z.pos k). rewrite inject_Z_opp. ring.
Qed.
Lemma abs_signed s q : (0 <= q)%Q -> (Qabs (signed s q) == q)%Q.
Proof. intros H. unfold signed. destruct s; [rewrite Qabs_opp|]; apply Qabs_pos; exact H. Qed.

(** An integer below 2^53 is its own shortest text. *)
Lemma round_small_int V k e n : 0 < V -> 0 < n < 2 ^ 53 -> (forall s, round_decimal s V 0 = S754_finite s k e) -> (dy (Z.pos k) e == inject_Z n)%Q -> V = n.
Proof.
  intros PV Hn R D. pose proof (round_int_near false V k e PV (R false)) as N. unfold near in N. rewrite D in N. apply near_bounds in N as [N1 N2].
  change (2 ^ 52)%Q with (inject_Z 4503599627370496) in *. change (2 ^ 53) with 9007199254740992 in *.
  assert (A : (V - n) * 4503599627370496 <= V). { unfold Qminus in N2. rewrite <- inject_Z_opp, <- inject_Z_plus, <- inject_Z_mult, <- Zle_Qle in N2. lia. }
  assert (U : forall m, 0 < m < 9007199254740992 -> V = m -> V = n).
  { intros m Hm E. destruct (int_form m) as (k' & j & F & _ & Hj & Ek); [change (2 ^ 53) with 9007199254740992; lia|].
    specialize (R false). rewrite E in R. destruct m as [|p|p]; [lia| |lia]. cbn [round_decimal] in R. change (Z.to_pos (10 ^ 0)) with 1%positive in R. rewrite Pos.mul_1_r in R.
    unfold f64_of_Z in F. cbn [binary_normalize] in F. rewrite R in F. injection F as -> ->. rewrite E.
    assert (dy (Z.pos k') (- j) == inject_Z (Z.pos p))%Q as X.
    { rewrite Ek. change (Z.abs (Z.pos p)) with (Z.pos p). rewrite dy_shift by lia. replace (- j + j) with 0 by lia. unfold dy. change (2 ^ 0)%Q with 1%Q. ring. }
    rewrite X in D. unfold Qeq in D. cbn in D. lia. }
  destruct (Z_lt_le_dec V 9007199254740992) as [L|L]; [apply (U V); lia|].
  assert (V = 9007199254740992 \/ V = 9007199254740993 \/ V = 9007199254740994) as C by lia.
  exfalso. specialize (R false). destruct C as [E|[E|E]]; rewrite E in R; vm_compute in R; injection R as <- <-; unfold Qeq in D; cbn in D; lia.
Qed.

(** ** C74 *)

(** What is read from a text is written without panic or endless loop, whatever the text, and what is written is read by
    every parser.  Special values come back; a number comes back within 2^-41 of itself,
    and exactly if it is an integer below 2^53. *)
Theorem C74_text (i rem : bytes) (c : class) (b : N) (s : bytes) (r : real) :
  bytes_ok i -> starts_with_object c false 9 (b :: s) i rem -> (b < 64)%N -> some_read real_codec i rem r ->
  exists enc r', to_vec (tober_real r) = Ok enc /\ bytes_ok enc /\ (forall x, bytes_ok x -> all_read real_codec (enc ++ x) x r')
    /\ (real_value r = None \/ r = RZero -> r' = r)
    /\ (forall q, holds r q -> exists q', holds r' q' /\ (Qabs (q' - q) * 2 ^ 41 <= Qabs q)%Q)
    /\ (forall n, Z.abs n < 2 ^ 53 -> holds r (inject_Z n) -> holds r' (inject_Z n)).
Proof.
  intros Hi HS Hb HR. destruct (real_some_read _ _ _ _ _ _ Hi HS HR) as [_ R].
  assert (X : exists x, f64_ok x /\ real_new x = Ok r).
  { unfold read_content, decode_real in R. replace (b / 128 mod 2 =? 1)%N with false in R by (rewrite N.div_small by lia; reflexivity).
    replace (b / 64 mod 2 =? 1)%N with false in R by (rewrite N.div_small by lia; reflexivity). unfold decode_decimal_form in R.
    destruct (from_utf8 s) as [t|]; [|discriminate]. destruct (b mod 4 =? 1)%N.
    - destruct (parse_uint (2 ^ 32) t) as [v|]; [|discriminate]. eexists. split; [apply f64_of_Z_ok|exact R].
    - destruct (b mod 4 =? 0)%N; [discriminate|]. destruct (parse_f64 t) as [v|] eqn:E; [|discriminate]. exists v. split; [eapply parse_f64_ok; exact E|exact R]. }
  destruct X as (x & Hx & RN). clear R HR HS Hi Hb.
  assert (Sp : forall cb, real_write r = Ok (cb, blen cb) -> (blen cb < 2 ^ 64)%N -> bytes_ok cb -> read_content cb = Ok r ->
    exists enc, to_vec (tober_real r) = Ok enc /\ bytes_ok enc /\ (forall x, bytes_ok x -> all_read real_codec (enc ++ x) x r)).
  { intros cb W L O RC. destruct (written_real r cb W L O) as (enc & E & Oe & S). exists enc. split; [exact E|]. split; [exact Oe|].
    intros y Hy. eapply real_all_read; [|apply S|exact RC]. apply bytes_ok_app. split; assumption. }
  assert (Sp' : forall cb, real_write r = Ok (cb, blen cb) -> (blen cb < 2 ^ 64)%N -> bytes_ok cb -> read_content cb = Ok r ->
    exists enc r', to_vec (tober_real r) = Ok enc /\ bytes_ok enc /\ (forall x, bytes_ok x -> all_read real_codec (enc ++ x) x r')
    /\ (real_value r = None \/ r = RZero -> r' = r)
    /\ (forall q, holds r q -> exists q', holds r' q' /\ (Qabs (q' - q) * 2 ^ 41 <= Qabs q)%Q)
    /\ (forall n, Z.abs n < 2 ^ 53 -> holds r (inject_Z n) -> holds r' (inject_Z n))).
  { intros cb W L O RC. destruct (Sp cb W L O RC) as (enc & E1 & E2 & E3). exists enc, r. split; [exact E1|]. split; [exact E2|]. split; [exact E3|]. split; [reflexivity|].
    split; [|auto]. intros q Hq. exists q. split; [exact Hq|]. setoid_replace (q - q)%Q with 0%Q by ring. change (Qabs 0) with 0%Q. rewrite Qmult_0_l. apply Qabs_nonneg. }
  destruct x as [sg|sg| |sg k e].
  - cbn in RN. injection RN as <-. apply (Sp' []); try reflexivity. constructor.
  - destruct sg; cbn in RN; injection RN as <-; [apply (Sp' [65%N])|apply (Sp' [64%N])]; try reflexivity; repeat constructor.
  - cbn in RN. injection RN as <-. apply (Sp' [66%N]); try reflexivity; repeat constructor.
  - clear Sp Sp'. cbn [f64_ok] in Hx.
    destruct (real_new_total sg k e Hx) as (k1 & e1 & x1 & E1 & B1 & F1 & Hx1 & Nt & _). rewrite E1 in RN. injection RN as <-.
    destruct (written_text sg k1 e1 x1 B1 (F1 sg) ltac:(lia)) as (V & T & W1 & W2 & W3 & W4 & PV & RV).
    destruct (real_new_fine (round_decimal sg V x1) (round_decimal_ok _ _ _)) as [r' R'].
    destruct (written_real _ _ W1 W2 W3) as (enc & En & Oe & Se). exists enc, r'. split; [exact En|]. split; [exact Oe|].
    split. { intros y Hy. eapply real_all_read; [|apply Se|rewrite W4; exact R']. apply bytes_ok_app. split; assumption. }
    split. { intros [H|H]; discriminate. }
    destruct (finite_value sg k1 e1 x1 10%N) as [FV1 FV2].
    pose proof (dy_pos (Z.pos k1) e1 ltac:(lia)) as P1. pose proof (ten_pos x1) as PT.
    assert (Pm : (0 < dy (Z.pos k1) e1 * 10 ^ x1)%Q) by (apply Qmult_lt_0_compat; assumption).
    split.
    + intros q (q0 & Q1 & Q2). rewrite FV1 in Q1. injection Q1 as <-. rewrite FV2 in Q2.
      destruct (rewritten_near sg k e k1 e1 x1 V r' Hx E1 PV RV R') as (k2 & e2 & x2 & -> & N5). destruct (finite_value sg k2 e2 x2 10%N) as [G1 G2].
      set (m := (dy (Z.pos k1) e1 * 10 ^ x1)%Q) in *.
      set (d := (dy (Z.pos k2) e2 * 10 ^ x2)%Q) in *.
      exists (signed sg d). split; [eexists; split; [exact G1|exact G2]|].
      rewrite <- Q2. rewrite abs_signed by (apply Qlt_le_weak; exact Pm).
      unfold near in N5. unfold signed. destruct sg; [|exact N5]. setoid_replace (- d - - m)%Q with (- (d - m))%Q by ring. rewrite Qabs_opp. exact N5.
    + intros n Hn (q0 & Q1 & Q2). rewrite FV1 in Q1. injection Q1 as <-. rewrite FV2 in Q2.
      pose proof (int_of_spec sg k1 e1 (F1 sg)) as (PI & _). pose proof (int_of_dy sg k1 e1 (F1 sg)) as DI. set (I := int_of k1 e1) in *.
      rewrite DI in Q2, Pm. clear FV1 FV2.
      assert (Ab : (inject_Z I * 10 ^ x1 == inject_Z (Z.abs n))%Q).
      { rewrite <- (abs_signed sg) by (apply Qlt_le_weak; exact Pm). rewrite Q2. change (Qabs (inject_Z n)) with (inject_Z (Z.abs n)). reflexivity. }
      assert (Hx0 : 0 <= x1).
      { destruct (Z_le_gt_dec 0 x1) as [L|L]; [exact L|]. exfalso. apply Nt.
        assert (Ei : I = Z.abs n * 10 ^ (- x1)).
        { apply inject_Z_injective. rewrite inject_Z_mult, Zpower_Qpower by lia. rewrite <- Ab. change (inject_Z 10) with 10%Q. rewrite <- Qmult_assoc, <- Qpower_plus by discriminate.
          replace (x1 + - x1) with 0 by lia. change (10 ^ 0)%Q with 1%Q. ring. }
        rewrite Ei. replace (- x1) with (1 + (- x1 - 1)) by lia. rewrite Z.pow_add_r by lia. change (10 ^ 1) with 10.
        replace (Z.abs n * (10 * 10 ^ (- x1 - 1))) with (Z.abs n * 10 ^ (- x1 - 1) * 10) by ring. apply Z.mod_mul. lia. }
      assert (Ei : I * 10 ^ x1 = Z.abs n).
      { apply inject_Z_injective. rewrite inject_Z_mult, Zpower_Qpower by lia. exact Ab. }
      assert (P10 : 0 < 10 ^ x1) by (apply Z.pow_pos_nonneg; lia).
      assert (EV : V = I) by (apply (round_small_int V k1 e1 I PV); [nia|exact RV|exact DI]). subst V.
      set (z := if sg then - Z.abs n else Z.abs n).
      assert (Az : Z.abs z = Z.abs n) by (unfold z; destruct sg; lia).
      destruct (int_form z) as (k' & j & F & Nk & Hj & Ek); [split; [nia|lia]|].
      assert (RF : round_decimal sg I x1 = S754_finite sg k' (- j)).
      { replace (z <? 0) with sg in F by (unfold z; destruct sg; nia). rewrite <- F. unfold z. rewrite <- Ei. destruct I as [|p|p]; [lia| |lia]. unfold f64_of_Z.
        replace (Z.pos p * 10 ^ x1) with (Z.pos (p * Z.to_pos (10 ^ x1))) by (rewrite Pos2Z.inj_mul, Z2Pos.id by lia; reflexivity).
        destruct sg; cbn [Z.opp binary_normalize]; (destruct x1; [reflexivity|reflexivity|lia]). }
      rewrite RF in R'. destruct (real_new_near sg k' (- j)) as (k2 & e2 & x2 & R2 & _ & _ & _ & _ & _ & Ex).
      { apply bounded_normal; [exact Nk|lia]. }
      assert (Dn : (dy (Z.pos k') (- j) == inject_Z (Z.abs n))%Q).
      { rewrite Ek, Az, dy_shift by lia. replace (- j + j) with 0 by lia. unfold dy. change (2 ^ 0)%Q with 1%Q. ring. }
      destruct (Ex _ Dn) as [_ Ev]. rewrite R2 in R'. injection R' as <-. destruct (finite_value sg k2 e2 x2 10%N) as [G1 G2].
      eexists. split; [exact G1|]. rewrite G2. rewrite <- Q2. rewrite Ev, Dn, <- Ab. reflexivity.
Qed.
Print Assumptions C74_text.

(** The text 3.E-93 is read as 3000000000000004E-108 and that comes back as 3000000000000007E-108. *)
Theorem C74_text_refuted : exists i b s r, bytes_ok i /\ starts_with_object Universal false 9 (b :: s) i [] /\ (b < 64)%N
  /\ all_read real_codec i [] r /\ (exists q, holds r q) /\ ~ survives r.
Proof.
  exists [9; 7; 3; 51; 46; 69; 45; 57; 51]%N, 3%N, [51; 46; 69; 45; 57; 51]%N, (RBinary (f64_of_Z 3000000000000004) 10 (-108) 10).
  split; [repeat constructor|]. split; [apply (short_object [3; 51; 46; 69; 45; 57; 51]%N []); reflexivity|]. split; [reflexivity|].
  split; [repeat split; vm_compute; reflexivity|]. split; [exists (3000000000000004 * 10 ^ (-108))%Q; unfold holds; eexists; split; [reflexivity|vm_compute; reflexivity]|].
  set (r := RBinary (f64_of_Z 3000000000000004) 10 (-108) 10). set (cb := [3; 51; 48; 48; 48; 48; 48; 48; 48; 48; 48; 48; 48; 48; 48; 48; 52; 69; 45; 49; 48; 56]%N).
  assert (W : real_write r = Ok (cb, blen cb)) by (vm_compute; reflexivity).
  intros S. apply (survives_read r cb W) in S; [|reflexivity|repeat constructor]. destruct S as (r' & q & R & (q1 & H1 & E1) & (q2 & H2 & E2)).
  assert (R2 : read_content cb = Ok (RBinary (f64_of_Z 3000000000000007) 10 (-108) 10)) by (vm_compute; reflexivity). rewrite R2 in R. injection R as <-.
  rewrite <- E1 in E2. clear E1. vm_compute in H1, H2. injection H1 as <-. injection H2 as <-.
  revert E2. apply Qeq_bool_neq. vm_compute. reflexivity.
Qed.
Print Assumptions C74_text_refuted.

(** The text -12.5, read as -125E-1, written so and read back. *)
Example C74_text_case :
  let i := [9; 6; 2; 45; 49; 50; 46; 53]%N in
  bytes_ok i /\ starts_with_object Universal false 9 [2; 45; 49; 50; 46; 53]%N i [] /\ some_read real_codec i [] (RBinary (f64_of_Z (-125)) 10 (-1) 10)
  /\ holds (RBinary (f64_of_Z (-125)) 10 (-1) 10) (-25 # 2)
  /\ to_vec (tober_real (RBinary (f64_of_Z (-125)) 10 (-1) 10)) = Ok [9; 8; 3; 45; 49; 50; 53; 69; 45; 49]%N
  /\ parse_der real_codec [9; 8; 3; 45; 49; 50; 53; 69; 45; 49]%N = Ok ([], RBinary (f64_of_Z (-125)) 10 (-1) 10).
Proof.
  cbv zeta. split; [repeat constructor|]. split; [apply (short_object [2; 45; 49; 50; 46; 53]%N []); reflexivity|]. split; [left; vm_compute; reflexivity|].
  split; [eexists; split; [vm_compute; reflexivity|vm_compute; reflexivity]|].
  split; vm_compute; reflexivity.
Qed.

(** The smallest number, 5E-324, and one of the largest, 17E307: both are read, written and read back. *)
Example C74_text_ends_case :
  let i := [9; 7; 3; 53; 69; 45; 51; 50; 52]%N in let j := [9; 7; 3; 49; 55; 69; 51; 48; 55]%N in
  bytes_ok i /\ starts_with_object Universal false 9 [3; 53; 69; 45; 51; 50; 52]%N i []
  /\ bytes_ok j /\ starts_with_object Universal false 9 [3; 49; 55; 69; 51; 48; 55]%N j []
  /\ (let r := RBinary (S754_finite false 4940656458412465 0) 10 (-339) 10 in some_read real_codec i [] r /\ holds r (4940656458412465 * 10 ^ (-339))%Q
      /\ (4940656458412465 * 10 ^ (-339) < 2 ^ (-1073))%Q /\ (let* enc := to_vec (tober_real r) in parse_der real_codec enc) = Ok ([], r))
  /\ (let r := RBinary (S754_finite false 8517715530038134 971) 10 0 10 in some_read real_codec j [] r /\ holds r (8517715530038134 * 2 ^ 971)%Q
      /\ (2 ^ 1023 < 8517715530038134 * 2 ^ 971)%Q /\ (let* enc := to_vec (tober_real r) in parse_der real_codec enc) = Ok ([], r)).
Proof.
  cbv zeta. split; [repeat constructor|]. split; [apply (short_object [3; 53; 69; 45; 51; 50; 52]%N []); reflexivity|].
  split; [repeat constructor|]. split; [apply (short_object [3; 49; 55; 69; 51; 48; 55]%N []); reflexivity|].
  split; (split; [left; vm_compute; reflexivity|]; split; [eexists; split; [reflexivity|vm_compute; reflexivity]|]; split; vm_compute; reflexivity).
Qed.
