(** Bit-level lemmas for BIT STRING. *)
From Verif Require Import Base MHeader MEncode SHeader PArith PHeader PEncode MBer SBer PBer PIter
  MInt PCodec PInt MSeg SSeg PSeg.
Local Open Scope nat_scope.

Definition pad_nth (l : list bool) : list bool := map (fun k => nth k l false) (seq 0 8).

Lemma byte_of_bits_pad l : byte_of_bits l = byte_of_bits (pad_nth l).
Proof. reflexivity. Qed.

Lemma eight_bits (l : list bool) : length l = 8 -> bits_of_byte (byte_of_bits l) = l /\ (byte_of_bits l < 256)%N.
Proof.
  intros H. do 8 (destruct l as [|? l]; [discriminate|]). destruct l; [|discriminate].
  destruct b, b0, b1, b2, b3, b4, b5, b6; vm_compute; split; reflexivity.
Qed.

Lemma bits_of_byte_of l : bits_of_byte (byte_of_bits l) = pad_nth l /\ (byte_of_bits l < 256)%N.
Proof. rewrite byte_of_bits_pad. apply eight_bits. reflexivity. Qed.

Lemma byte_of_bits_of b : (b < 256)%N -> byte_of_bits (bits_of_byte b) = b.
Proof.
  intros H. apply N.eqb_eq. revert b H.
  apply (byte_forall (fun b => (byte_of_bits (bits_of_byte b) =? b)%N)). vm_compute. reflexivity.
Qed.

Lemma bits_of_byte_length b : length (bits_of_byte b) = 8.
Proof. reflexivity. Qed.

Lemma bits_of_length bs : length (bits_of bs) = 8 * length bs.
Proof. induction bs as [|b bs IH]; [reflexivity|]. cbn [bits_of flat_map]. rewrite app_length. fold (bits_of bs). rewrite IH, bits_of_byte_length. cbn [length]. lia. Qed.

Lemma bits_of_app a b : bits_of (a ++ b) = bits_of a ++ bits_of b.
Proof. unfold bits_of. apply flat_map_app. Qed.

Lemma bits_of_cons b bs : bits_of (b :: bs) = bits_of_byte b ++ bits_of bs.
Proof. reflexivity. Qed.

Lemma pad_nth_firstn l : pad_nth l = firstn 8 (l ++ repeat false 8).
Proof. do 8 (destruct l as [|? l]; [reflexivity|]). reflexivity. Qed.

Lemma skipn8_pad l m : skipn 8 (l ++ repeat false (8 + m)) = skipn 8 l ++ repeat false (min (length l) 8 + m).
Proof.
  change 8 with (0 + 8) at 1. do 8 (destruct l as [|? l]; [cbn; try rewrite Nat.add_0_r; reflexivity|]).
  cbn [app skipn length Nat.add]. rewrite (Nat.min_r _ 8) by lia. reflexivity.
Qed.

Lemma firstn_false_more l a b n : n <= length l + a -> n <= length l + b ->
  firstn n (l ++ repeat false a) = firstn n (l ++ repeat false b).
Proof.
  revert l a b. induction n as [|n IH]; intros l a b Ha Hb; [reflexivity|].
  destruct l as [|x l].
  - cbn [app length] in *. destruct a as [|a]; [lia|]. destruct b as [|b]; [lia|]. cbn [repeat firstn]. f_equal.
    specialize (IH [] a b). cbn [app length] in IH. apply IH; lia.
  - cbn [app firstn length] in *. f_equal. apply IH; lia.
Qed.

Lemma bits_of_bytes_of n l : bits_of (bytes_of_bits n l) = firstn (8 * n) (l ++ repeat false (8 * n)).
Proof.
  revert l. induction n as [|n IH]; intros l; [reflexivity|]. cbn [bytes_of_bits]. rewrite bits_of_cons.
  rewrite (proj1 (bits_of_byte_of l)), IH, pad_nth_firstn.
  rewrite <- (firstn_skipn 8 (firstn (8 * S n) (l ++ repeat false (8 * S n)))).
  rewrite firstn_firstn, skipn_firstn_comm. replace (8 * S n - 8) with (8 * n) by lia.
  f_equal.
  - rewrite Nat.min_l by lia. apply firstn_false_more; lia.
  - replace (8 * S n) with (8 + 8 * n) by lia. rewrite skipn8_pad. apply firstn_false_more; lia.
Qed.

Lemma bytes_of_bits_ok n l : bytes_ok (bytes_of_bits n l).
Proof.
  revert l. induction n as [|n IH]; intros l; [constructor|]. cbn [bytes_of_bits]. constructor; [apply bits_of_byte_of|apply IH].
Qed.

Lemma bytes_of_bits_length n l : length (bytes_of_bits n l) = n.
Proof. revert l. induction n as [|n IH]; intros l; [reflexivity|]. cbn [bytes_of_bits length]. rewrite IH. reflexivity. Qed.

Lemma bits_of_inj a b : bytes_ok a -> bytes_ok b -> bits_of a = bits_of b -> a = b.
Proof.
  intros Ha. revert b. induction Ha as [|x a Hx Ha IH]; intros [|y b] Hb E; [reflexivity| | |].
  - apply (f_equal (@length bool)) in E. rewrite !bits_of_length in E. cbn in E. lia.
  - apply (f_equal (@length bool)) in E. rewrite !bits_of_length in E. cbn in E. lia.
  - inversion Hb as [|y' b' Hy Hb' E1]; subst. rewrite !bits_of_cons in E.
    apply app_inj_pre in E as [E1 E2]; [|reflexivity]. rewrite (IH b Hb' E2). f_equal.
    rewrite <- (byte_of_bits_of x Hx), <- (byte_of_bits_of y Hy), E1. reflexivity.
Qed.

(** Trailing zero bits do not matter. *)
Lemma bytes_of_bits_zeroes n l m : bytes_of_bits n (l ++ repeat false m) = bytes_of_bits n l.
Proof.
  apply bits_of_inj; try apply bytes_of_bits_ok. rewrite !bits_of_bytes_of, <- app_assoc, <- repeat_app.
  apply firstn_false_more; lia.
Qed.

Lemma elts_bound n : n <= 8 * elts n < n + 8.
Proof. unfold elts. lia. Qed.

Lemma elts_N n : N.of_nat (elts n) = ((N.of_nat n + 7) / 8)%N.
Proof. unfold elts. lia. Qed.

Lemma firstn_all2' {A} (l : list A) n : length l <= n -> firstn n l = l.
Proof. apply firstn_all2. Qed.

(** Packed bits. *)
Definition packed (bits : list bool) : bitstring := bitstring_from_slice 0 bits.

Lemma packed_raw_bits bits :
  bits_of (bs_raw (packed bits)) = bits ++ repeat false (8 * elts (length bits) - length bits).
Proof.
  cbn [packed bitstring_from_slice bs_raw Nat.add repeat app]. rewrite bits_of_bytes_of.
  pose proof (elts_bound (length bits)).
  rewrite (firstn_false_more bits _ (8 * elts (length bits) - length bits)) by lia.
  apply firstn_all2. rewrite app_length, repeat_length. lia.
Qed.

Lemma packed_bits bits : bs_bits (packed bits) = bits.
Proof.
  unfold bs_bits. rewrite packed_raw_bits. cbn [packed bitstring_from_slice bs_head bs_len skipn].
  rewrite <- (Nat.add_0_r (length bits)) at 1. rewrite firstn_app_2. cbn. apply app_nil_r.
Qed.

Lemma repeat_skipn {A} (x : A) n m : skipn n (repeat x m) = repeat x (m - n).
Proof.
  revert n. induction m as [|m IH]; intros [|n]; try reflexivity. cbn [repeat skipn Nat.sub]. apply IH.
Qed.

Lemma append_packed v b : bitstring_append (packed v) b = packed (v ++ bs_bits b).
Proof.
  unfold bitstring_append. rewrite packed_raw_bits.
  cbn [packed bitstring_from_slice bs_head bs_len Nat.add].
  rewrite <- (Nat.add_0_r (length v)) at 2. rewrite firstn_app_2. cbn [firstn]. rewrite app_nil_r.
  unfold packed, bitstring_from_slice. cbn [Nat.add repeat app]. rewrite app_length. f_equal.
  rewrite skipn_app, skipn_all2 by lia. cbn [app]. rewrite repeat_skipn, app_assoc. apply bytes_of_bits_zeroes.
Qed.

(** The specification relations are these functions. *)
Lemma byte_bits_iff b bits : byte_bits b bits <-> bits = bits_of_byte b.
Proof.
  split.
  - intros [L H]. do 8 (destruct bits as [|? bits]; [discriminate|]). destruct bits; [|discriminate].
    unfold bits_of_byte. cbn [map].
    pose proof (H 0 ltac:(lia)) as H0. pose proof (H 1 ltac:(lia)) as H1. pose proof (H 2 ltac:(lia)) as H2.
    pose proof (H 3 ltac:(lia)) as H3. pose proof (H 4 ltac:(lia)) as H4. pose proof (H 5 ltac:(lia)) as H5.
    pose proof (H 6 ltac:(lia)) as H6. pose proof (H 7 ltac:(lia)) as H7. cbn in H0, H1, H2, H3, H4, H5, H6, H7.
    repeat f_equal; assumption.
  - intros ->. split; [reflexivity|]. intros n Hn. do 8 (destruct n as [|n]; [reflexivity|]). lia.
Qed.

Lemma bytes_bits_iff bs bits : bytes_bits bs bits <-> bits = bits_of bs.
Proof.
  split.
  - induction 1 as [|b bits bs rest H _ IH]; [reflexivity|]. apply byte_bits_iff in H as ->. rewrite IH. reflexivity.
  - intros ->. induction bs as [|b bs IH]; [constructor|]. rewrite bits_of_cons. constructor; [apply byte_bits_iff; reflexivity|exact IH].
Qed.

Lemma app_split {A} (l v p : list A) : l = v ++ p <-> v = firstn (length l - length p) l /\ p = skipn (length l - length p) l.
Proof.
  split.
  - intros ->. rewrite app_length. replace (length v + length p - length p) with (length v + 0) by lia.
    rewrite firstn_app_2, skipn_app. cbn [firstn]. rewrite app_nil_r, skipn_all2 by lia.
    replace (length v + 0 - length v) with 0 by lia. split; reflexivity.
  - intros [E1 E2]. rewrite <- (firstn_skipn (length l - length p) l) at 1. rewrite <- E1, <- E2. reflexivity.
Qed.

(** Reading a primitive content. *)
Lemma bitstring_prim_ok h d r t :
  h_length h = Definite (blen d) ->
  (bitstring_prim h d = Ok (r, t) <->
   exists u bs, d = u :: bs /\ (u <= 7)%N /\ (u <= 8 * blen bs)%N /\ r = [] /\ t = mk_bits 0 bs (8 * length bs - N.to_nat u)).
Proof.
  intros Hl. unfold bitstring_prim. rewrite (get_content_exact h d _ Hl eq_refl). cbn [bind].
  destruct d as [|u bs].
  - split; [discriminate|]. intros (u & bs & E & _). discriminate.
  - destruct (N.leb_spec u 7); [|split; [discriminate|intros (u' & bs' & E & H' & _); injection E as -> ->; lia]].
    destruct (N.ltb_spec (8 * blen bs) u); [split; [discriminate|intros (u' & bs' & E & H1 & H2 & _); injection E as -> ->; lia]|].
    split.
    + intros E. injection E as <- <-. exists u, bs. auto 6.
    + intros (u' & bs' & E & _ & _ & -> & ->). injection E as -> ->. reflexivity.
Qed.

Lemma bits_value_iff d v :
  bits_value d v <-> exists u bs, d = u :: bs /\ (u <= 7)%N /\ (u <= 8 * blen bs)%N
                     /\ v = firstn (8 * length bs - N.to_nat u) (bits_of bs).
Proof.
  unfold bits_value, blen. split.
  - intros (u & bs & pad & -> & H & L & Hu). exists u, bs. apply bytes_bits_iff in H.
    assert (E := f_equal (@length bool) H). rewrite app_length, bits_of_length in E.
    symmetry in H. apply app_split in H as [H1 H2]. rewrite bits_of_length in H1.
    split; [reflexivity|]. split; [exact Hu|]. split; [lia|]. rewrite H1 at 1. f_equal. lia.
  - intros (u & bs & -> & Hu & Hl & ->). exists u, bs, (skipn (8 * length bs - N.to_nat u) (bits_of bs)).
    split; [reflexivity|]. split; [apply bytes_bits_iff; apply firstn_skipn|].
    split; [|exact Hu]. rewrite skipn_length, bits_of_length. lia.
Qed.

Lemma bs_bits_prim bs n : bs_bits (mk_bits 0 bs n) = firstn n (bits_of bs).
Proof. reflexivity. Qed.

(** Padding. *)
Definition zero_padding (d : bytes) : Prop :=
  exists u bs v pad, d = u :: bs /\ bits_of bs = v ++ pad /\ blen pad = u /\ Forall (fun b => b = false) pad.

Lemma trailing_byte b u : (b < 256)%N -> (u <= 7)%N ->
  ((trailing_zeros8 b <? u)%N = false <-> Forall (fun b => b = false) (skipn (8 - N.to_nat u) (bits_of_byte b))).
Proof.
  intros Hb Hu.
  assert (G : Bool.eqb (negb (trailing_zeros8 b <? u)%N) (forallb negb (skipn (8 - N.to_nat u) (bits_of_byte b))) = true).
  { assert (Hu' : In u (map N.of_nat (seq 0 8))).
    { replace u with (N.of_nat (N.to_nat u)) by lia. apply in_map. apply in_seq. lia. }
    revert Hu'. apply (proj1 (forallb_forall (fun u => Bool.eqb (negb (trailing_zeros8 b <? u)%N)
      (forallb negb (skipn (8 - N.to_nat u) (bits_of_byte b)))) (map N.of_nat (seq 0 8)))).
    revert b Hb. apply (byte_forall (fun b => forallb (fun u => Bool.eqb (negb (trailing_zeros8 b <? u)%N)
      (forallb negb (skipn (8 - N.to_nat u) (bits_of_byte b)))) (map N.of_nat (seq 0 8)))). vm_compute. reflexivity. }
  apply eqb_prop in G. rewrite Forall_forall. rewrite <- (negb_true_iff (trailing_zeros8 b <? u)%N), G, forallb_forall.
  split; intros H x Hx; specialize (H x Hx); destruct x; cbn in *; congruence.
Qed.

Lemma bitstring_check_ok h d v :
  bytes_ok d -> h_length h = Definite (blen d) -> bits_value d v ->
  (bitstring_check (mk_any h d) = Ok tt <-> h_constructed h = false /\ zero_padding d).
Proof.
  intros Hd Hl HV. unfold bitstring_check, assert_primitive. cbn [any_header any_data].
  destruct (h_constructed h); cbn [bind]; [split; [discriminate|intros [E _]; discriminate]|].
  apply bits_value_iff in HV as (u & bs & -> & Hu & Hu2 & ->). apply bytes_ok_cons in Hd as [Hub Hb].
  assert (ZP : zero_padding (u :: bs) <-> Forall (fun b => b = false) (skipn (8 * length bs - N.to_nat u) (bits_of bs))).
  { unfold zero_padding, blen. split.
    - intros (u' & bs' & v' & pad & E & E1 & L & F). injection E as <- <-. apply app_split in E1 as [_ E2].
      rewrite bits_of_length in E2. replace (N.to_nat u) with (length pad) by lia. rewrite <- E2. exact F.
    - intros F. eexists u, bs, _, _. split; [reflexivity|]. split; [symmetry; apply (firstn_skipn (8 * length bs - N.to_nat u))|].
      split; [|exact F]. rewrite skipn_length, bits_of_length. unfold blen in *. lia. }
  rewrite ZP. clear ZP. destruct bs as [|b0 bs].
  - assert (u = 0%N) by (unfold blen in Hu2; cbn in Hu2; lia). subst u. cbn. split; auto.
  - assert (Hne : b0 :: bs <> []) by discriminate. set (l := b0 :: bs) in *. clearbody l.
    destruct (exists_last Hne) as (l' & z & ->). rewrite last_last.
    apply bytes_ok_app in Hb as [_ Hz]. apply bytes_ok_cons in Hz as [Hz _].
    rewrite bits_of_app, app_length. cbn [length]. rewrite skipn_app, bits_of_length.
    replace (8 * (length l' + 1) - N.to_nat u - 8 * length l') with (8 - N.to_nat u) by lia.
    rewrite skipn_all2 by (rewrite bits_of_length; lia). cbn [app].
    replace (bits_of [z]) with (bits_of_byte z) by (cbn; reflexivity).
    rewrite <- (trailing_byte z u Hz Hu).
    destruct (trailing_zeros8 z <? u)%N; split; intros; try discriminate; try tauto.
    destruct H as [_ H]. discriminate.
Qed.
