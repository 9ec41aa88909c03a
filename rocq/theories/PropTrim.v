(** C16: what [trim_slice] leaves of the octets of an integer. *)
From Verif Require Import Base SHeader PArith MInt SInt PInt.

(** The octets before [s] are filling: zeros before the first other octet; or 0xff, each before an octet of 0x80 or more, up to the
    last one of these. *)
Inductive trimmed : bytes -> bytes -> Prop :=
| trim_none : trimmed [] []
| trim_zero n : trimmed (repeat 0 (S n)) [0]
| trim_zeros n y r : y <> 0 -> trimmed (repeat 0 (S n) ++ y :: r) (y :: r)
| trim_ones n y r : y <> 0 -> (n <> O -> 128 <= y) -> (y = 255 -> forall z q, r = z :: q -> z < 128) ->
    trimmed (repeat 255 n ++ y :: r) (y :: r).

Lemma position_zeros n l : position (fun b => negb (b =? 0)) (repeat 0 n ++ l) = option_map (fun k => n + k)%nat (position (fun b => negb (b =? 0)) l).
Proof. induction n as [|n IH]; cbn; [destruct (position _ l); reflexivity|]. rewrite IH. destruct (position _ l); reflexivity. Qed.

Lemma position_ones n y r : (n <> O -> 128 <= y) ->
  position (fun '(a, b) => negb ((a =? 0xff) && (0x80 <=? b))) (windows2 (repeat 255 n ++ y :: r))
  = option_map (fun k => n + k)%nat (position (fun '(a, b) => negb ((a =? 0xff) && (0x80 <=? b))) (windows2 (y :: r))).
Proof.
  intros H. induction n as [|n IH]; [cbn [repeat app]; destruct (position _ _); reflexivity|].
  change (repeat 255 (S n) ++ y :: r) with (255 :: (repeat 255 n ++ y :: r)).
  assert (G : exists z q, repeat 255 n ++ y :: r = z :: q /\ 128 <= z).
  { destruct n; [exists y, r|exists 255, (repeat 255 n ++ y :: r)]; split; try reflexivity; [apply H; discriminate|lia]. }
  destruct G as (z & q & E & Hz). rewrite E in *. change (windows2 (255 :: z :: q)) with ((255, z) :: windows2 (z :: q)).
  cbn [position]. apply N.leb_le in Hz. rewrite Hz. cbn [N.eqb Pos.eqb andb negb]. rewrite IH by (intros _; apply H; discriminate).
  destruct (position _ (windows2 (y :: r))); reflexivity.
Qed.

Lemma skipn_prefix {A} (a b : list A) : skipn (length a) (a ++ b) = b.
Proof. induction a; cbn; auto. Qed.

Lemma trimmed_trims bs s : trimmed bs s -> trim_slice bs = s.
Proof.
  intros H. destruct H as [|n|n y r Hy|n y r Hy Hn Hr].
  - reflexivity.
  - unfold trim_slice. cbn [repeat]. cbn [N.eqb negb andb]. pose proof (position_zeros (S n) []) as P. rewrite app_nil_r in P. cbn [repeat] in P.
    rewrite P. cbn [position option_map]. cbn [length]. rewrite repeat_length. replace (S n - 1)%nat with n by lia.
    change (0 :: repeat 0 n) with (repeat 0 (S n)). replace (S n) with (n + 1)%nat by lia. rewrite repeat_app.
    pose proof (skipn_prefix (repeat 0 n) (repeat 0 1)) as K. rewrite repeat_length in K. exact K.
  - pose proof (position_zeros (S n) (y :: r)) as P. cbn [position] in P. apply N.eqb_neq in Hy. rewrite Hy in P. cbn [negb option_map] in P.
    unfold trim_slice. cbn [repeat app] in *. cbn [N.eqb negb andb]. rewrite P. rewrite Nat.add_0_r.
    pose proof (skipn_prefix (repeat 0 (S n)) (y :: r)) as K. rewrite repeat_length in K. exact K.
  - pose proof (position_ones n y r Hn) as P.
    assert (S0 : match repeat 255 n ++ y :: r with [] => False | b :: _ => b <> 0 /\ (b = 255 \/ n = O) end) by (destruct n; cbn; auto; lia).
    assert (K : skipn n (repeat 255 n ++ y :: r) = y :: r).
    { pose proof (skipn_prefix (repeat 255 n) (y :: r)) as K. rewrite repeat_length in K. exact K. }
    assert (L : length (repeat 255 n ++ y :: r) = (n + S (length r))%nat) by (rewrite app_length, repeat_length; reflexivity).
    set (W := fun '(a, b) => negb ((a =? 0xff) && (0x80 <=? b))) in *.
    assert (Q : (position W (windows2 (y :: r)) = None /\ r = []) \/ position W (windows2 (y :: r)) = Some O).
    { destruct r as [|z q]; [left; split; reflexivity|]. right. change (windows2 (y :: z :: q)) with ((y, z) :: windows2 (z :: q)). cbn [position].
      replace (W (y, z)) with true; [reflexivity|]. unfold W. symmetry. apply negb_true_iff. destruct (N.eqb_spec y 255) as [E|E]; [|reflexivity].
      cbn [andb]. apply N.leb_gt. exact (Hr E z q eq_refl). }
    destruct (repeat 255 n ++ y :: r) as [|b l] eqn:E; [contradiction|]. destruct S0 as [B1 B2].
    assert (P0 : position (fun b => negb (b =? 0)) (b :: l) = Some O).
    { cbn [position]. apply N.eqb_neq in B1. rewrite B1. reflexivity. }
    unfold trim_slice. destruct (negb (b =? 0) && negb (b =? 255)) eqn:G.
    + apply andb_true_iff in G as [_ G]. destruct B2 as [-> |N0]; [discriminate G|]. subst n. symmetry. exact E.
    + rewrite P0. fold W. rewrite P. destruct Q as [[Q R0]|Q]; rewrite Q; cbn [option_map].
      * rewrite L. subst r. cbn [length]. replace (n + 1 - 1)%nat with n by lia. exact K.
      * rewrite Nat.add_0_r. destruct n as [|m]; [symmetry; exact E|exact K].
Qed.

Lemma trimmed_total bs : exists s, trimmed bs s.
Proof.
  induction bs as [|x r IH]; [exists []; constructor|]. destruct IH as (s & H).
  destruct (N.eq_dec x 0) as [-> |X0].
  - inversion H as [|n|n y q Hy|n y q Hy Hn Hq]; subst.
    + exists [0]. apply (trim_zero 0).
    + exists [0]. apply (trim_zero (S n)).
    + exists (y :: q). apply (trim_zeros (S n)); assumption.
    + destruct n as [|n].
      * exists (y :: q). apply (trim_zeros 0 y q Hy).
      * exists (repeat 255 (S n) ++ y :: q). apply (trim_zeros 0 255 (repeat 255 n ++ y :: q)). discriminate.
  - assert (F : ~ (x = 255 /\ exists z q, r = z :: q /\ 128 <= z) -> exists s, trimmed (x :: r) s).
    { intros N. exists (x :: r). apply (trim_ones 0 x r X0); [congruence|]. intros -> z q ->. destruct (N.lt_ge_cases z 128); [assumption|].
      exfalso. apply N. split; [reflexivity|]. exists z, q. auto. }
    destruct (N.eq_dec x 255) as [-> |X1]; [|apply F; intros [E _]; congruence].
    destruct r as [|z q]; [apply F; intros (_ & z & q & E & _); discriminate|].
    destruct (N.lt_ge_cases z 128) as [Z|Z]; [apply F; intros (_ & z' & q' & E & H'); injection E as <- <-; lia|].
    remember (z :: q) as r eqn:Er. destruct H as [|n|n y p Hy|n y p Hy Hn Hq]; [discriminate|injection Er as E _; lia|injection Er as E _; lia|].
    exists (y :: p). apply (trim_ones (S n) y p Hy); [|exact Hq]. intros _. destruct n as [|n]; [|apply Hn; discriminate].
    injection Er as -> _. exact Z.
Qed.

(** [trim_slice] takes away the filling, all of it and nothing else. *)
Theorem C16_trim (bs s : bytes) : trim_slice bs = s <-> trimmed bs s.
Proof.
  split; [|apply trimmed_trims]. intros <-. destruct (trimmed_total bs) as (s & H). rewrite (trimmed_trims _ _ H). exact H.
Qed.
Print Assumptions C16_trim.

(** The value stays: unsigned when zeros are taken away, two's complement otherwise. *)
Theorem C16_trim_value (bs : bytes) : bytes_ok bs ->
  (hd 1 bs = 0 -> value_be 256 (trim_slice bs) = value_be 256 bs)
  /\ (hd 1 bs <> 0 -> twos (trim_slice bs) = twos bs).
Proof.
  intros Hb. pose proof (proj1 (C16_trim bs (trim_slice bs)) eq_refl) as H. remember (trim_slice bs) as s eqn:Es. clear Es.
  assert (V : forall n l, value_be 256 (repeat 0 n ++ l) = value_be 256 l).
  { intros n l. induction n as [|n IH]; [reflexivity|]. change (repeat 0 (S n) ++ l) with (0 :: (repeat 0 n ++ l)).
    rewrite <- IH. reflexivity. }
  assert (T : forall n y r, bytes_ok (repeat 255 n ++ y :: r) -> (n <> O -> 128 <= y) -> twos (y :: r) = twos (repeat 255 n ++ y :: r)).
  { intros n y r. induction n as [|n IH]; intros Ho Hn; [reflexivity|].
    change (repeat 255 (S n) ++ y :: r) with (255 :: (repeat 255 n ++ y :: r)) in *.
    rewrite IH; [|inversion Ho; assumption|intros _; apply Hn; discriminate].
    destruct n as [|n]; cbn [repeat app] in *; symmetry; apply twos_redundant; try exact Ho; right; split; try reflexivity; [apply Hn; discriminate|discriminate]. }
  destruct H as [|n|n y r Hy|n y r Hy Hn Hr].
  - split; reflexivity.
  - split; [|cbn; congruence]. intros _. pose proof (V (S n) []) as E. rewrite app_nil_r in E. rewrite E. reflexivity.
  - split; [|cbn; congruence]. intros _. symmetry. apply V.
  - split; [destruct n; cbn; [congruence|discriminate]|]. intros _. apply T; assumption.
Qed.
Print Assumptions C16_trim_value.

Example C16_trim_case :
  trim_slice [0; 0; 200; 0] = [200; 0] /\ trim_slice [255; 255; 128; 1] = [128; 1] /\ trim_slice [255; 255; 127] = [255; 127]
  /\ trimmed [255; 255; 127] [255; 127] /\ twos [255; 127] = (-129)%Z.
Proof.
  repeat split. apply (trim_ones 1 255 [127]); [discriminate|intros _; discriminate|]. intros _ z q E. injection E as <- <-. reflexivity.
Qed.
