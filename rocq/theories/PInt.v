(** Two's complement arithmetic and the integer codecs. *)
From Verif Require Import Base MHeader MEncode SHeader PArith PHeader PEncode MBer SBer PBer PIter MInt
  SInt PCodec.

Local Open Scope Z_scope.

Definition pw (n : nat) : Z := 256 ^ Z.of_nat n.
Lemma pw_S n : pw (S n) = 256 * pw n.
Proof. unfold pw. rewrite Nat2Z.inj_succ, Z.pow_succ_r by lia. reflexivity. Qed.
Lemma pw_0 : pw 0 = 1.
Proof. reflexivity. Qed.
Lemma pw_pos n : 1 <= pw n.
Proof. induction n as [|n IH]; [rewrite pw_0; lia|rewrite pw_S; lia]. Qed.
Lemma pw_mono a b : (a <= b)%nat -> pw a <= pw b.
Proof. intros H. unfold pw. apply Z.pow_le_mono_r; lia. Qed.
Lemma pw_add a b : pw (a + b) = pw a * pw b.
Proof. unfold pw. rewrite Nat2Z.inj_add, Z.pow_add_r by lia. reflexivity. Qed.
Lemma pw_N n : Z.of_N (256 ^ N.of_nat n)%N = pw n.
Proof. rewrite N2Z.inj_pow, nat_N_Z. reflexivity. Qed.

Definition val (bs : bytes) : Z := Z.of_N (value_be 256 bs).
Lemma val_cons b r : val (b :: r) = Z.of_N b * pw (length r) + val r.
Proof. unfold val. rewrite value_be_cons, N2Z.inj_add, N2Z.inj_mul, pw_N. reflexivity. Qed.
Lemma val_nil : val [] = 0.
Proof. reflexivity. Qed.
Lemma val_app xs ys : val (xs ++ ys) = val xs * pw (length ys) + val ys.
Proof. unfold val. rewrite value_be_app, N2Z.inj_add, N2Z.inj_mul, pw_N. reflexivity. Qed.
Lemma val_bound bs : bytes_ok bs -> 0 <= val bs < pw (length bs).
Proof.
  intros H. unfold val. pose proof (value_be_bound 256 bs eq_refl H) as B.
  rewrite <- pw_N. lia.
Qed.

Lemma twos_cons b r :
  twos (b :: r) = (if (b <? 128)%N then Z.of_N b else Z.of_N b - 256) * pw (length r) + val r.
Proof. reflexivity. Qed.
Lemma twos_val_pos b r : (b < 128)%N -> twos (b :: r) = val (b :: r).
Proof. intros H. rewrite twos_cons, val_cons. destruct (N.ltb_spec b 128); [lia|lia]. Qed.
Lemma twos_val_neg b r : (128 <= b)%N -> twos (b :: r) = val (b :: r) - pw (S (length r)).
Proof. intros H. rewrite twos_cons, val_cons, pw_S. destruct (N.ltb_spec b 128); lia. Qed.

Lemma twos_bound b r :
  bytes_ok (b :: r) -> - (128 * pw (length r)) <= twos (b :: r) < 128 * pw (length r).
Proof.
  intros H. apply bytes_ok_cons in H as [Hb Hr]. pose proof (val_bound r Hr). rewrite twos_cons.
  pose proof (pw_pos (length r)). destruct (N.ltb_spec b 128); nia.
Qed.

Lemma twos_sign b r : bytes_ok (b :: r) -> (twos (b :: r) < 0 <-> (128 <= b)%N).
Proof.
  intros H. apply bytes_ok_cons in H as [Hb Hr]. pose proof (val_bound r Hr). rewrite twos_cons.
  pose proof (pw_pos (length r)). destruct (N.ltb_spec b 128); split; intros; nia.
Qed.

Definition nonredundant (bs : bytes) : Prop :=
  match bs with
  | [] => False
  | [_] => True
  | a :: b :: _ => ~ (a = 0 /\ b < 128)%N /\ ~ (a = 255 /\ 128 <= b)%N
  end.

Lemma twos_redundant a b r :
  bytes_ok (a :: b :: r) -> (a = 0 /\ b < 128)%N \/ (a = 255 /\ 128 <= b)%N ->
  twos (a :: b :: r) = twos (b :: r).
Proof.
  intros H [[-> Hb]|[-> Hb]].
  - rewrite !twos_val_pos by (assumption || reflexivity). rewrite (val_cons 0). lia.
  - rewrite !twos_val_neg by (assumption || discriminate). rewrite (val_cons 255).
    cbn [length]. rewrite !pw_S. lia.
Qed.

Lemma twos_far a b r :
  bytes_ok (a :: b :: r) -> nonredundant (a :: b :: r) ->
  128 * pw (length r) <= twos (a :: b :: r) \/ twos (a :: b :: r) < - (128 * pw (length r)).
Proof.
  intros H [H1 H2]. apply bytes_ok_cons in H as [Ha H]. apply bytes_ok_cons in H as [Hb Hr].
  rewrite twos_cons, val_cons. cbn [length]. rewrite pw_S. pose proof (val_bound r Hr).
  pose proof (pw_pos (length r)). destruct (N.ltb_spec a 128).
  - left. assert ((1 <= a)%N \/ (a = 0 /\ 128 <= b)%N) as [|[-> ?]] by lia; nia.
  - right. assert ((a <= 254)%N \/ (a = 255 /\ b < 128)%N) as [|[-> ?]] by lia; nia.
Qed.

Lemma shortest_iff bs : bytes_ok bs -> (shortest bs <-> nonredundant bs).
Proof.
  intros H. split.
  - intros [Hne Hs]. destruct bs as [|a [|b r]]; [congruence|exact I|].
    assert (G : (a = 0 /\ b < 128)%N \/ (a = 255 /\ 128 <= b)%N -> False).
    { intros D. specialize (Hs (b :: r)). cbn [length] in Hs.
      assert (S (S (length r)) <= S (length r))%nat; [|lia]. apply Hs.
      - apply bytes_ok_cons in H. apply H.
      - discriminate.
      - symmetry. apply twos_redundant; assumption. }
    split; intros D; apply G; [left|right]; exact D.
  - intros Hn. destruct bs as [|a [|b r]]; [destruct Hn| |].
    + split; [discriminate|]. intros [|x l] _ Hne _; [congruence|cbn; lia].
    + split; [discriminate|]. intros bs' Hok' Hne' E.
      destruct (le_lt_dec (length (a :: b :: r)) (length bs')) as [L|L]; [exact L|exfalso].
      destruct bs' as [|x l]; [congruence|]. cbn [length] in L.
      pose proof (twos_bound x l Hok') as B. rewrite E in B.
      pose proof (twos_far a b r H Hn) as F.
      assert (P : pw (length l) <= pw (length r)) by (apply pw_mono; lia). lia.
Qed.

Lemma twos_inj_len a b :
  bytes_ok a -> bytes_ok b -> length a = length b -> twos a = twos b -> a = b.
Proof.
  intros Ha Hb L E. destruct a as [|x a], b as [|y b]; try discriminate; [reflexivity|].
  apply (value_be_inj 256); try assumption; [reflexivity|].
  cbn [length] in L. injection L as L.
  assert (V : val (x :: a) = val (y :: b)).
  { pose proof (twos_sign x a Ha) as Sx. pose proof (twos_sign y b Hb) as Sy. rewrite E in Sx.
    destruct (N.lt_ge_cases x 128) as [Hx|Hx], (N.lt_ge_cases y 128) as [Hy|Hy];
      [rewrite <- !twos_val_pos by assumption; exact E|lia|lia|].
    rewrite !twos_val_neg, L in E by assumption. lia. }
  unfold val in V. lia.
Qed.

Lemma shortest_unique a b :
  bytes_ok a -> bytes_ok b -> shortest a -> shortest b -> twos a = twos b -> a = b.
Proof.
  intros Ha Hb [Na Sa] [Nb Sb] E. apply twos_inj_len; try assumption.
  pose proof (Sa b Hb Nb (eq_sym E)). pose proof (Sb a Ha Na E). lia.
Qed.

Lemma high_bit b r : (b < 256)%N -> is_highest_bit_set (b :: r) = (128 <=? b)%N.
Proof. intros H. cbn. rewrite land_80 by exact H. rewrite N.leb_antisym. reflexivity. Qed.

Lemma high_bit_twos bs : bytes_ok bs -> is_highest_bit_set bs = (twos bs <? 0).
Proof.
  intros H. destruct bs as [|b r]; [reflexivity|]. pose proof (twos_sign b r H).
  apply bytes_ok_cons in H as [Hb _]. rewrite high_bit by exact Hb. lia.
Qed.

Lemma twos_val_nonneg bs : bytes_ok bs -> 0 <= twos bs -> twos bs = val bs.
Proof.
  intros H P. destruct bs as [|b r]; [reflexivity|]. apply twos_val_pos.
  pose proof (twos_sign b r H). lia.
Qed.

(** Stripping. *)
Lemma strip_zeroes_cons b0 b1 r :
  strip_zeroes (b0 :: b1 :: r)
  = if ((b0 =? 0) && (b1 <? 0x80))%N then strip_zeroes (b1 :: r) else b0 :: b1 :: r.
Proof. reflexivity. Qed.
Lemma strip_ones_cons b0 b1 r :
  strip_ones (b0 :: b1 :: r)
  = if ((b0 =? 0xff) && (0x80 <=? b1))%N then strip_ones (b1 :: r) else b0 :: b1 :: r.
Proof. reflexivity. Qed.

Lemma strip_zeroes_ok b :
  b <> [] -> bytes_ok b -> 0 <= twos b ->
  let d := strip_zeroes b in nonredundant d /\ twos d = twos b /\ bytes_ok d /\ (length d <= length b)%nat.
Proof.
  intros Hne Hok Hpos. cbv zeta. induction b as [|b0 b IH]; [congruence|].
  destruct b as [|b1 r]; [cbn [strip_zeroes]; repeat split; assumption || reflexivity|].
  rewrite strip_zeroes_cons. destruct (N.eqb_spec b0 0) as [->|H0]; cbn [andb].
  - destruct (N.ltb_spec b1 0x80) as [H1|H1].
    + assert (E : twos (0%N :: b1 :: r) = twos (b1 :: r)) by (apply twos_redundant; [exact Hok|left; split; [reflexivity|exact H1]]).
      rewrite E in *. apply bytes_ok_cons in Hok as [_ Hok].
      destruct (IH ltac:(discriminate) Hok Hpos) as (I1 & I2 & I3 & I4).
      repeat split; try assumption. cbn [length] in *. lia.
    + repeat split; try assumption; try lia.
  - pose proof (twos_sign _ _ Hok). repeat split; try assumption; try lia.
Qed.

Lemma strip_ones_ok b :
  b <> [] -> bytes_ok b -> twos b < 0 ->
  let d := strip_ones b in nonredundant d /\ twos d = twos b /\ bytes_ok d /\ (length d <= length b)%nat.
Proof.
  intros Hne Hok Hneg. cbv zeta. induction b as [|b0 b IH]; [congruence|].
  destruct b as [|b1 r]; [cbn [strip_ones]; repeat split; assumption || reflexivity|].
  rewrite strip_ones_cons. destruct (N.eqb_spec b0 255) as [->|H0]; cbn [andb].
  - destruct (N.leb_spec 0x80 b1) as [H1|H1].
    + assert (E : twos (255%N :: b1 :: r) = twos (b1 :: r)) by (apply twos_redundant; [exact Hok|right; split; [reflexivity|exact H1]]).
      rewrite E in *. apply bytes_ok_cons in Hok as [_ Hok].
      destruct (IH ltac:(discriminate) Hok Hneg) as (I1 & I2 & I3 & I4).
      repeat split; try assumption. cbn [length] in *. lia.
    + repeat split; try assumption; try lia.
  - pose proof (twos_sign _ _ Hok). repeat split; try assumption; try lia.
Qed.

Lemma from_const_array_ok b :
  b <> [] -> bytes_ok b ->
  exists d, from_const_array b = Ok d /\ nonredundant d /\ twos d = val b /\ bytes_ok d
            /\ (length d <= S (length b))%nat.
Proof.
  intros Hne Hok. unfold from_const_array. destruct b as [|b0 r]; [congruence|].
  rewrite high_bit_twos by exact Hok. destruct (Z.ltb_spec (twos (b0 :: r)) 0) as [H|H].
  - exists (0%N :: b0 :: r). pose proof (twos_sign _ _ Hok). split; [reflexivity|].
    split; [split; lia|]. split; [|split; [|cbn; lia]].
    + rewrite twos_val_pos by reflexivity. rewrite val_cons. lia.
    + apply bytes_ok_cons. split; [reflexivity|exact Hok].
  - destruct (strip_zeroes_ok (b0 :: r) Hne Hok H) as (I1 & I2 & I3 & I4).
    exists (strip_zeroes (b0 :: r)). repeat split; try assumption.
    + rewrite I2. apply twos_val_nonneg; assumption.
    + lia.
Qed.

Lemma from_const_array_negative_ok b :
  b <> [] -> bytes_ok b -> twos b < 0 ->
  exists d, from_const_array_negative b = Ok d /\ nonredundant d /\ twos d = twos b /\ bytes_ok d
            /\ (length d <= length b)%nat.
Proof.
  intros Hne Hok H. destruct (strip_ones_ok b Hne Hok H) as (I1 & I2 & I3 & I4).
  exists (strip_ones b). destruct b; [congruence|]. repeat split; assumption.
Qed.

(** Ranges. *)
Lemma pow2_pw w : 2 ^ (8 * Z.of_nat w) = pw w.
Proof. unfold pw. rewrite Z.pow_mul_r by lia. reflexivity. Qed.
Lemma pow2_half w : (1 <= w)%nat -> 2 ^ (8 * Z.of_nat w - 1) = 128 * pw (w - 1).
Proof.
  intros H. replace (8 * Z.of_nat w - 1) with (7 + 8 * Z.of_nat (w - 1)) by lia.
  rewrite Z.pow_add_r, pow2_pw by lia. reflexivity.
Qed.

Lemma pw_pred w : (1 <= w)%nat -> pw w = 256 * pw (w - 1).
Proof. intros H. destruct w as [|w]; [lia|]. rewrite pw_S. f_equal. f_equal. lia. Qed.

Lemma be_bytes_val w n : (Z.of_N n < pw w) -> val (be_bytes w n) = Z.of_N n.
Proof. intros H. unfold val. rewrite be_bytes_value_small; [reflexivity|]. pose proof (pw_N w). lia. Qed.

Lemma be_bytes_ne w n : (1 <= w)%nat -> be_bytes w n <> [].
Proof. intros H E. pose proof (be_bytes_length w n) as L. rewrite E in L. cbn in L. lia. Qed.

Lemma twos_alt bs : bytes_ok bs ->
  twos bs = if twos bs <? 0 then val bs - pw (length bs) else val bs.
Proof.
  intros H. destruct bs as [|b r]; [reflexivity|]. pose proof (twos_sign b r H).
  destruct (Z.ltb_spec (twos (b :: r)) 0).
  - apply twos_val_neg. lia.
  - apply twos_val_pos. lia.
Qed.

Lemma twos_range bs : bytes_ok bs -> bs <> [] -> in_signed (length bs) (twos bs).
Proof.
  intros H Hne. destruct bs as [|b r]; [congruence|]. pose proof (twos_bound b r H) as B.
  unfold in_signed. rewrite pow2_half by (cbn; lia). cbn [length]. rewrite Nat.sub_succ, Nat.sub_0_r. lia.
Qed.

Lemma as_unsigned_val w v :
  (1 <= w)%nat -> Z.of_N (as_unsigned w v) = v mod pw w.
Proof.
  intros H. unfold as_unsigned. rewrite pow2_pw. pose proof (pw_pos w).
  pose proof (Z.mod_pos_bound v (pw w)). lia.
Qed.

Lemma twos_be_bytes w v :
  (1 <= w)%nat -> in_signed w v -> twos (be_bytes w (as_unsigned w v)) = v.
Proof.
  intros Hw Hv. unfold in_signed in Hv. rewrite pow2_half in Hv by exact Hw.
  set (bs := be_bytes w (as_unsigned w v)).
  assert (Hok : bytes_ok bs) by apply be_bytes_ok.
  assert (Hl : length bs = w) by apply be_bytes_length.
  assert (Hval : val bs = v mod pw w).
  { unfold bs. pose proof (as_unsigned_val w v Hw). pose proof (pw_pos w).
    pose proof (Z.mod_pos_bound v (pw w)). rewrite be_bytes_val; lia. }
  pose proof (twos_range bs Hok (be_bytes_ne w _ Hw)) as R. rewrite Hl in R. unfold in_signed in R.
  rewrite pow2_half in R by exact Hw. pose proof (twos_alt bs Hok) as A. rewrite Hl, Hval in A.
  pose proof (pw_pred w Hw). pose proof (pw_pos (w - 1)).
  destruct (Z.le_gt_cases 0 v).
  - rewrite Z.mod_small in A by lia. destruct (Z.ltb_spec (twos bs) 0); lia.
  - assert (v mod pw w = v + pw w).
    { rewrite <- (Z.mod_add v 1) by lia. rewrite Z.mod_small by lia. lia. }
    destruct (Z.ltb_spec (twos bs) 0); lia.
Qed.

Lemma integer_from_int_ok w v :
  (1 <= w)%nat -> in_signed w v ->
  exists d, integer_from_int w v = Ok d /\ shortest d /\ twos d = v /\ bytes_ok d
            /\ (length d <= S w)%nat.
Proof.
  intros Hw Hv. pose proof (twos_be_bytes w v Hw Hv) as E. unfold integer_from_int.
  set (bs := be_bytes w (as_unsigned w v)) in *.
  assert (Hok : bytes_ok bs) by apply be_bytes_ok.
  assert (Hne : bs <> []) by (apply be_bytes_ne; exact Hw).
  assert (Hl : length bs = w) by apply be_bytes_length.
  destruct (Z.leb_spec 0 v).
  - destruct (from_const_array_ok bs Hne Hok) as (d & E1 & E2 & E3 & E4 & E5).
    exists d. rewrite <- (twos_val_nonneg bs Hok) in E3 by lia. repeat split; try assumption; try lia.
    + apply shortest_iff in E2; [|exact E4]. apply E2.
    + apply shortest_iff in E2; [|exact E4]. apply E2.
  - destruct (from_const_array_negative_ok bs Hne Hok ltac:(lia)) as (d & E1 & E2 & E3 & E4 & E5).
    exists d. repeat split; try assumption; try lia.
    + apply shortest_iff in E2; [|exact E4]. apply E2.
    + apply shortest_iff in E2; [|exact E4]. apply E2.
Qed.

Lemma integer_from_uint_ok w v :
  (1 <= w)%nat -> in_unsigned w v ->
  exists d, integer_from_uint w v = Ok d /\ shortest d /\ twos d = v /\ bytes_ok d
            /\ (length d <= S w)%nat.
Proof.
  intros Hw Hv. unfold in_unsigned in Hv. rewrite pow2_pw in Hv. unfold integer_from_uint.
  set (bs := be_bytes w (as_unsigned w v)) in *.
  assert (Hok : bytes_ok bs) by apply be_bytes_ok.
  assert (Hne : bs <> []) by (apply be_bytes_ne; exact Hw).
  assert (Hl : length bs = w) by apply be_bytes_length.
  assert (Hval : val bs = v).
  { unfold bs. pose proof (as_unsigned_val w v Hw) as A. rewrite Z.mod_small in A by lia.
    rewrite be_bytes_val; lia. }
  destruct (from_const_array_ok bs Hne Hok) as (d & E1 & E2 & E3 & E4 & E5).
  exists d. repeat split; try assumption; try lia.
  - apply shortest_iff in E2; [|exact E4]. apply E2.
  - apply shortest_iff in E2; [|exact E4]. apply E2.
Qed.

(** Decoding. *)
Lemma skipn_position {A} (f : A -> bool) l n :
  position f l = Some n -> Forall (fun x => f x = false) (firstn n l)
  /\ exists x r, skipn n l = x :: r /\ f x = true.
Proof.
  revert n. induction l as [|x l IH]; intros n; cbn [position]; [discriminate|].
  destruct (f x) eqn:F.
  - intros E. injection E as <-. split; [constructor|]. exists x, l. split; [reflexivity|exact F].
  - destruct (position f l) as [m|]; [|discriminate]. intros E. injection E as <-.
    destruct (IH m eq_refl) as [I1 I2]. split; [constructor; assumption|exact I2].
Qed.

Lemma position_none {A} (f : A -> bool) l : position f l = None -> Forall (fun x => f x = false) l.
Proof.
  induction l as [|x l IH]; cbn [position]; [constructor|]. destruct (f x) eqn:F; [discriminate|].
  destruct (position f l); [discriminate|]. constructor; [exact F|]. apply IH. reflexivity.
Qed.

Lemma val_zeroes l : Forall (fun x => negb (x =? 0)%N = false) l -> val l = 0.
Proof.
  induction 1 as [|x l Hx H IH]; [reflexivity|]. rewrite val_cons, IH. assert (x = 0%N) as -> by lia. lia.
Qed.

(** What trimming leaves of a non-negative content: at most one octet, or a non-zero first octet. *)
Lemma trim_slice_ok bs :
  bytes_ok bs -> is_highest_bit_set bs = false ->
  val (trim_slice bs) = val bs
  /\ ((length (trim_slice bs) <= 1)%nat \/ exists x r, trim_slice bs = x :: r /\ x <> 0%N)
  /\ bytes_ok (trim_slice bs).
Proof.
  intros Hok Hh. destruct bs as [|b0 r]; [repeat split; [left; cbn; lia|exact Hok]|].
  pose proof (proj1 (bytes_ok_cons _ _) Hok) as [Hb _]. rewrite high_bit in Hh by exact Hb.
  unfold trim_slice. destruct (N.eqb_spec b0 0) as [->|H0]; cbn [negb andb].
  - set (l := 0%N :: r) in *. destruct (position (fun b => negb (b =? 0)%N) l) as [n|] eqn:P.
    + pose proof (skipn_position _ _ _ P) as [S1 (x & t & S2 & S3)].
      assert (Hl : val l = val (skipn n l)).
      { rewrite <- (firstn_skipn n l) at 1. rewrite val_app, (val_zeroes _ S1). lia. }
      assert (Hs : bytes_ok (skipn n l)).
      { rewrite <- (firstn_skipn n l) in Hok. apply bytes_ok_app in Hok. apply Hok. }
      destruct n as [|n].
      * cbn in S2. injection S2 as <- <-. discriminate S3.
      * rewrite Hl. repeat split; [right|exact Hs]. exists x, t. split; [exact S2|lia].
    + apply position_none in P.
      assert (Hz : forall k, val (skipn k l) = 0).
      { intros k. apply val_zeroes. rewrite <- (firstn_skipn k l) in P. apply Forall_app in P. apply P. }
      rewrite Hz. split; [symmetry; apply (Hz 0%nat)|].
      split; [left; rewrite skipn_length; cbn [length]; lia|].
      rewrite <- (firstn_skipn (length l - 1) l) in Hok. apply bytes_ok_app in Hok. apply Hok.
  - destruct (N.eqb_spec b0 255) as [->|H1]; cbn [negb andb]; [discriminate|].
    repeat split; [right|exact Hok]. exists b0, r. split; [reflexivity|exact H0].
Qed.

Lemma val_repeat0 n bs : val (repeat 0%N n ++ bs) = val bs.
Proof. rewrite val_app. rewrite val_zeroes; [lia|]. induction n; constructor; [reflexivity|assumption]. Qed.

Lemma decode_array_uint_ok w bs :
  (1 <= w)%nat -> bytes_ok bs ->
  (exists ar, decode_array_uint w bs = Ok ar /\ val ar = twos bs /\ in_unsigned w (twos bs)
              /\ length ar = w)
  \/ (exists e, decode_array_uint w bs = Err e /\ ~ in_unsigned w (twos bs)).
Proof.
  intros Hw Hok. unfold decode_array_uint. destruct (is_highest_bit_set bs) eqn:Hh.
  - right. eexists. split; [reflexivity|]. rewrite high_bit_twos in Hh by exact Hok. unfold in_unsigned. lia.
  - destruct (trim_slice_ok bs Hok Hh) as (T1 & T2 & T3).
    rewrite high_bit_twos in Hh by exact Hok.
    assert (V : twos bs = val bs) by (apply twos_val_nonneg; [exact Hok|lia]).
    unfold in_unsigned. rewrite pow2_pw, V. set (t := trim_slice bs) in *.
    destruct (Nat.ltb_spec w (length t)) as [L|L].
    + right. eexists. split; [reflexivity|]. destruct T2 as [T2|(x & r & E & Hx)]; [lia|].
      rewrite E in *. cbn [length] in L. rewrite <- T1, val_cons.
      assert (P : pw w <= pw (length r)) by (apply pw_mono; lia).
      apply bytes_ok_cons in T3 as [_ T3]. pose proof (val_bound r T3). pose proof (pw_pos w). nia.
    + left. eexists. split; [reflexivity|]. rewrite val_repeat0, T1. split; [reflexivity|].
      pose proof (val_bound t T3) as B. rewrite T1 in B. pose proof (pw_mono _ _ L).
      split; [lia|]. rewrite app_length, repeat_length. lia.
Qed.

Lemma val_repeatff n : val (repeat 255%N n) = pw n - 1.
Proof.
  induction n as [|n IH]; [reflexivity|]. cbn [repeat]. rewrite val_cons, IH, repeat_length, pw_S. lia.
Qed.

Lemma assert_primitive_ok h : assert_primitive h = Ok tt <-> h_constructed h = false.
Proof. unfold assert_primitive. destruct (h_constructed h); split; congruence. Qed.

Lemma int_max_Z w : (1 <= w)%nat -> Z.of_N (int_max w) = 128 * pw (w - 1) - 1.
Proof.
  intros H. unfold int_max. rewrite <- pow2_half by exact H.
  assert (1 <= 2 ^ (8 * N.of_nat w - 1))%N.
  { change 1%N with (2 ^ 0)%N at 1. apply N.pow_le_mono_r; lia. }
  rewrite N2Z.inj_sub, N2Z.inj_pow by assumption. f_equal. f_equal. lia.
Qed.

Lemma int_ber_content_ok w h i r v :
  (1 <= w)%nat -> bytes_ok i ->
  (int_ber_content w h i = Ok (r, v) <->
   h_constructed h = false /\ r = [] /\ v = twos i /\ in_signed w v
   /\ (v < 0 -> (length i <= w)%nat)).
Proof.
  intros Hw Hok. unfold int_ber_content, assert_primitive.
  destruct (h_constructed h); [split; [discriminate|intros [E _]; discriminate]|]. cbn [bind].
  rewrite high_bit_twos by exact Hok. pose proof (pw_pos (w - 1)) as Hp. pose proof (pw_pred w Hw) as Hpp.
  pose proof (int_max_Z w Hw) as HM. unfold in_signed. rewrite pow2_half by exact Hw.
  destruct (Z.ltb_spec (twos i) 0) as [Hneg|Hpos].
  - unfold decode_array_int. destruct (Nat.ltb_spec w (length i)) as [L|L]; cbn [bind].
    + split; [discriminate|]. intros (_ & _ & -> & _ & Hl). lia.
    + assert (Hne : i <> []) by (intros ->; cbn in Hneg; lia).
      assert (V : Z.of_N (of_be_bytes (repeat 255%N (w - length i) ++ i)) = twos i + pw w).
      { change (of_be_bytes ?x) with (value_be 256 x).
        change (Z.of_N (value_be 256 ?x)) with (val x). rewrite val_app, val_repeatff.
        pose proof (twos_alt i Hok) as A. destruct (Z.ltb_spec (twos i) 0); [|lia].
        replace (pw w) with (pw (w - length i) * pw (length i)); [lia|].
        rewrite <- pw_add. f_equal. lia. }
      assert (R : - (128 * pw (w - 1)) <= twos i).
      { pose proof (twos_range i Hok Hne) as R. unfold in_signed in R. destruct i as [|b0 i0]; [congruence|].
        rewrite pow2_half in R by (cbn; lia). pose proof (pw_mono (length (b0 :: i0) - 1) (w - 1) ltac:(lia)). lia. }
      unfold as_signed. rewrite pow2_pw.
      destruct (N.ltb_spec (int_max w) (of_be_bytes (repeat 255%N (w - length i) ++ i))); [|lia].
      rewrite V. replace (twos i + pw w - pw w) with (twos i) by lia. split.
      * intros E. injection E as <- <-. repeat split; try lia.
      * intros (_ & -> & -> & _). reflexivity.
  - destruct (decode_array_uint_ok w i Hw Hok) as [(ar & E & V & R & _)|(e & E & R)]; rewrite E; cbn [bind].
    + assert (V' : Z.of_N (of_be_bytes ar) = twos i) by exact V.
      unfold as_signed.
      destruct (N.ltb_spec (int_max w) (of_be_bytes ar)); cbn [bind].
      * split; [discriminate|]. intros (_ & _ & -> & B & _). lia.
      * destruct (N.ltb_spec (int_max w) (of_be_bytes ar)); [lia|]. rewrite V'. split.
        -- intros E'. injection E' as <- <-. repeat split; try lia.
        -- intros (_ & -> & -> & _). reflexivity.
    + split; [discriminate|]. intros (_ & _ & -> & B & _). unfold in_unsigned in R. rewrite pow2_pw in R. lia.
Qed.

Lemma uint_ber_content_ok w h i r v :
  (1 <= w)%nat -> bytes_ok i ->
  (uint_ber_content w h i = Ok (r, v) <->
   h_constructed h = false /\ r = [] /\ v = twos i /\ in_unsigned w v).
Proof.
  intros Hw Hok. unfold uint_ber_content, assert_primitive.
  destruct (h_constructed h); [split; [discriminate|intros [E _]; discriminate]|]. cbn [bind].
  destruct (decode_array_uint_ok w i Hw Hok) as [(ar & E & V & R & _)|(e & E & R)]; rewrite E; cbn [bind].
  - assert (V' : Z.of_N (of_be_bytes ar) = twos i) by exact V. rewrite V'. split.
    + intros E'. injection E' as <- <-. repeat split; apply R.
    + intros (_ & -> & -> & _). reflexivity.
  - split; [discriminate|]. intros (_ & _ & -> & B). contradiction.
Qed.

Lemma check_der_int_input_ok i :
  bytes_ok i -> (check_der_int_input i = Ok tt <-> nonredundant i).
Proof.
  intros H. destruct i as [|a [|b r]]; cbn [check_der_int_input nonredundant].
  - split; [discriminate|tauto].
  - tauto.
  - destruct (N.eqb_spec a 0), (N.ltb_spec b 0x80), (N.eqb_spec a 0xff), (N.leb_spec 0x80 b); cbn [andb];
      (split; [try discriminate; intros _|try (intros [? ?]; exfalso; tauto); reflexivity]); lia.
Qed.

Lemma check_der_int_input_cases i : check_der_int_input i = Ok tt \/ exists e, check_der_int_input i = Err e.
Proof.
  destruct i as [|a [|b r]]; cbn [check_der_int_input]; eauto.
  destruct ((a =? 0)%N && (b <? 128)%N); [eauto|]. destruct ((a =? 255)%N && (128 <=? b)%N); eauto.
Qed.

Lemma check_der_int_ok a :
  bytes_ok (any_data a) ->
  (check_der_int a = Ok tt <->
   h_constructed (any_header a) = false /\ h_length (any_header a) <> Indefinite /\ shortest (any_data a)).
Proof.
  intros H. rewrite shortest_iff by exact H. unfold check_der_int.
  unfold assert_primitive, length_assert_definite.
  destruct (h_constructed (any_header a)); [split; [discriminate|intros [E _]; discriminate]|].
  cbn [bind]. destruct (h_length (any_header a)); cbn [is_definite bind].
  - rewrite check_der_int_input_ok by exact H. split; [intros N; repeat split; [discriminate|exact N]|tauto].
  - split; [discriminate|]. intros (_ & E & _). congruence.
Qed.

(** A shortest content in range is short enough. *)
Lemma shortest_len w i :
  (1 <= w)%nat -> bytes_ok i -> shortest i -> in_signed w (twos i) -> (length i <= w)%nat.
Proof.
  intros Hw Hok [Hne Hs] Hr. specialize (Hs (be_bytes w (as_unsigned w (twos i)))).
  rewrite be_bytes_length in Hs. apply Hs; [apply be_bytes_ok|apply be_bytes_ne; exact Hw|].
  apply twos_be_bytes; assumption.
Qed.

Lemma int_der_content_ok w h i r v :
  (1 <= w)%nat -> bytes_ok i ->
  (int_der_content w h i = Ok (r, v) <->
   h_constructed h = false /\ r = [] /\ shortest i /\ v = twos i /\ in_signed w v).
Proof.
  intros Hw Hok. unfold int_der_content. rewrite shortest_iff by exact Hok.
  rewrite <- (check_der_int_input_ok i Hok).
  destruct (check_der_int_input_cases i) as [E|(e & E)]; rewrite E; cbn [bind].
  - rewrite int_ber_content_ok by assumption. split.
    + intros (A & B & C & D & F). repeat split; try assumption; apply D.
    + intros (A & B & _ & C & D). repeat split; try assumption; try apply D. intros _.
      apply check_der_int_input_ok in E; [|exact Hok]. apply (shortest_iff i Hok) in E.
      subst v. apply shortest_len; assumption.
  - split; [discriminate|]. intros (_ & _ & B & _). discriminate.
Qed.

Lemma uint_der_content_ok w h i r v :
  (1 <= w)%nat -> bytes_ok i ->
  (uint_der_content w h i = Ok (r, v) <->
   h_constructed h = false /\ r = [] /\ shortest i /\ v = twos i /\ in_unsigned w v).
Proof.
  intros Hw Hok. unfold uint_der_content. rewrite shortest_iff by exact Hok.
  rewrite <- (check_der_int_input_ok i Hok).
  destruct (check_der_int_input_cases i) as [E|(e & E)]; rewrite E; cbn [bind].
  - rewrite uint_ber_content_ok by assumption. tauto.
  - split; [discriminate|]. intros (_ & _ & B & _). discriminate.
Qed.

Lemma integer_ber_content_ok h i r d :
  (integer_ber_content h i = Ok (r, d) <->
   h_constructed h = false /\ h_length h = Definite (blen d) /\ i = d ++ r /\ d <> []).
Proof.
  unfold integer_ber_content, assert_primitive, der_get_content.
  destruct (h_constructed h); [split; [discriminate|intros [E _]; discriminate]|]. cbn [bind].
  destruct (h_length h) as [n|]; [|split; [discriminate|intros (_ & E & _); discriminate]].
  destruct (take n i) as [[r' c]|e|m|] eqn:T; cbn [bind].
  - apply take_ok in T as [-> <-]. split.
    + intros E. destruct c as [|x c]; [discriminate|]. injection E as -> <-. repeat split; discriminate.
    + intros (_ & E & E2 & Hne). injection E as E.
      assert (c = d /\ r' = r) as [-> ->].
      { apply app_inj_pre; [unfold blen in E; lia|exact E2]. }
      destruct d; [congruence|reflexivity].
  - unfold take in T. destruct (n <=? blen i)%N; discriminate.
  - split; [discriminate|]. intros (_ & E & -> & _). injection E as ->.
    rewrite take_app in T by reflexivity. discriminate.
  - unfold take in T. destruct (n <=? blen i)%N; discriminate.
Qed.
