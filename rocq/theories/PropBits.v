(** C95: [len] and [is_set] of a BIT STRING tell the bits of its contents; C20 for slices that begin inside a byte. *)
From Verif Require Import Base MHeader MEncode SHeader PArith PHeader PEncode MBer SBer PBer PIter PCodec PropBer.
From Verif Require Import MInt SInt PInt PropInt MSeg SSeg PSeg PBits PropSeg PropAgree.

Lemma bits_of_byte_nth b k : (k < 8)%nat -> nth k (bits_of_byte b) false = N.testbit b (7 - N.of_nat k).
Proof. intros H. do 8 (destruct k as [|k]; [reflexivity|]). lia. Qed.
Lemma bits_of_nth bs : forall n, (n < 8 * length bs)%nat ->
  nth n (bits_of bs) false = N.testbit (nth (n / 8) bs 0) (7 - N.of_nat (n mod 8)).
Proof.
  induction bs as [|b bs IH]; intros n Hn; [cbn [length] in Hn; lia|]. cbn [length] in Hn. rewrite bits_of_cons.
  destruct (Nat.ltb_spec n 8) as [H|H].
  - rewrite app_nth1 by (rewrite bits_of_byte_length; exact H). rewrite Nat.div_small, Nat.mod_small by exact H. apply bits_of_byte_nth, H.
  - rewrite app_nth2, bits_of_byte_length by (rewrite bits_of_byte_length; exact H). rewrite IH by lia.
    replace n with ((n - 8) + 1 * 8)%nat at 3 4 by lia. rewrite Nat.div_add, Nat.mod_add by lia.
    rewrite Nat.add_1_r. reflexivity.
Qed.
Lemma nth_firstn_lt {A} (l : list A) m n d : nth n (firstn m l) d = if (n <? m)%nat then nth n l d else d.
Proof.
  revert m n. induction l as [|x l IH]; intros m n; [rewrite firstn_nil; destruct n, (Nat.ltb _ m); reflexivity|].
  destruct m; [destruct n; reflexivity|]. destruct n; [reflexivity|]. cbn [firstn nth]. rewrite IH. reflexivity.
Qed.

(** Bit [n] of the octets [bs], of which the last [u] bits are not used: bit 1 of X.690 8.6.2 is the most significant one. *)
Definition bit_at (u : N) (bs : bytes) (n : nat) : bool :=
  (N.of_nat n + u <? 8 * blen bs) && N.testbit (nth (n / 8) bs 0) (7 - N.of_nat (n mod 8)).
Definition shows_bits (b : bitstring) (u : N) (bs : bytes) : Prop :=
  N.of_nat (bs_len b) + u = 8 * blen bs /\ forall n, bitstring_is_set b n = bit_at u bs n.

Lemma shows_prim bs u : u <= 8 * blen bs -> shows_bits (mk_bits 0 bs (8 * length bs - N.to_nat u)) u bs.
Proof.
  intros H. unfold blen in H. split; [unfold blen; cbn [bs_len]; lia|]. intros n. unfold bitstring_is_set. rewrite bs_bits_prim, nth_firstn_lt. unfold bit_at, blen.
  destruct (Nat.ltb_spec n (8 * length bs - N.to_nat u)) as [L|L].
  - replace (_ <? _) with true by lia. apply bits_of_nth. lia.
  - replace (_ <? _) with false by lia. reflexivity.
Qed.

(** A primitive BIT STRING, as read by all the readers that accept it. *)
Theorem C95_read (i rem bs : bytes) (c : class) (u : N) :
  bytes_ok i -> starts_with_object c false 3 (u :: bs) i rem -> u <= 7 -> u <= 8 * blen bs ->
  exists b, shows_bits b u bs
    /\ parse_ber bitstring_codec i = Ok (rem, b) /\ from_ber bitstring_codec i = Ok (rem, b) /\ parse_der bitstring_codec i = Ok (rem, b)
    /\ (forall r v, from_der bitstring_codec i = Ok (r, v) -> r = rem /\ v = b).
Proof.
  intros Hi H U1 U2. set (b := mk_bits 0 bs (8 * length bs - N.to_nat u)). exists b. split; [apply shows_prim, U2|].
  assert (X : forall h, h_length h = Definite (blen (u :: bs)) -> h_constructed h = false -> bytes_ok (u :: bs) -> bitstring_ber_content h (u :: bs) = Ok ([], b)).
  { intros h Hl K Hb. apply bitstring_content_prim; [exact Hb|unfold fits; rewrite Hl; reflexivity|exact K|]. exists u, bs. auto. }
  destruct H as (t & idb & lenb & HR & Ht & E). pose proof Hi as Hi'. rewrite E, !bytes_ok_app in Hi'. destruct Hi' as (_ & _ & Hb & _).
  assert (PB : parse_ber bitstring_codec i = Ok (rem, b)).
  { apply (parse_ber_iff bitstring_codec i rem b Hi). exists c, false, t, (Definite (blen (u :: bs))), idb, lenb, (u :: bs), [].
    split; [exact HR|]. split; [exact E|]. split; [apply contents_definite; reflexivity|]. split; [cbn [accept_tag bitstring_codec]; unfold is_tag; apply N.eqb_eq, Ht|].
    apply X; [reflexivity|reflexivity|exact Hb]. }
  assert (PD : parse_der bitstring_codec i = Ok (rem, b)).
  { apply (parse_der_iff bitstring_codec i rem b Hi). exists c, false, t, idb, lenb, (u :: bs), [].
    split; [exact HR|]. split; [exact E|]. split; [cbn [accept_tag bitstring_codec]; unfold is_tag; apply N.eqb_eq, Ht|].
    cbn [der_content bitstring_codec]. unfold bitstring_der_content, assert_primitive. cbn [h_constructed hdr bind]. apply X; [reflexivity|reflexivity|exact Hb]. }
  split; [exact PB|]. split; [apply from_ber_parse_ber; [intros a; reflexivity|exact Hi|exact PB]|]. split; [exact PD|].
  intros r v F. assert (FB : from_ber bitstring_codec i = Ok (r, v)).
  { unfold from_der, from_ber in *. apply bind_ok in F as ([r' a] & F1 & F). apply bind_ok in F as ([] & _ & F). rewrite (any_der_ber _ _ _ Hi F1). exact F. }
  apply from_ber_parse_ber in FB; [|intros a; reflexivity|exact Hi]. rewrite PB in FB. injection FB as <- <-. auto.
Qed.
Print Assumptions C95_read.

(** [BitString::new], and a slice of bits that begins anywhere in a byte. *)
Theorem C95_build :
  (forall u s b, bitstring_new u s = Ok b -> shows_bits b u s)
  /\ (forall head bits, (head < 8)%nat ->
        let b := bitstring_from_slice head bits in bs_len b = length bits /\ forall n, bitstring_is_set b n = nth n bits false).
Proof.
  split.
  - intros u s b. unfold bitstring_new. destruct ((u <? 8) && (u <? 8 * blen s)) eqn:E; [|discriminate]. intros X. injection X as <-. apply shows_prim. lia.
  - intros head bits Hh b. split; [reflexivity|]. intros n. unfold bitstring_is_set, b, bitstring_from_slice, bs_bits. cbn [bs_len bs_head bs_raw].
    rewrite bits_of_bytes_of, skipn_firstn_comm, firstn_firstn. pose proof (elts_bound (head + length bits)) as B.
    rewrite Nat.min_l by lia. rewrite <- app_assoc, skipn_app, repeat_length, Nat.sub_diag, skipn_all2 by (rewrite repeat_length; lia).
    cbn [app skipn]. rewrite firstn_app, Nat.sub_diag, firstn_all. cbn [firstn]. rewrite app_nil_r. reflexivity.
Qed.
Print Assumptions C95_build.

(** Six bits, 101100: the last one asked for is outside. *)
Example C95_case :
  let i := [3; 2; 2; 0xb3; 5] in
  bytes_ok i /\ starts_with_object Universal false 3 [2; 0xb3] i [5]
  /\ (exists b, parse_ber bitstring_codec i = Ok ([5], b) /\ map (bitstring_is_set b) [0; 1; 2; 3; 4; 5; 6; 7; 8]%nat
       = [true; false; true; true; false; false; false; false; false])
  /\ map (bit_at 2 [0xb3]) [0; 1; 2; 3; 4; 5; 6; 7; 8]%nat = [true; false; true; true; false; false; false; false; false].
Proof.
  split; [repeat constructor|]. split.
  { exists 3, [3], [2]. split; [|split; reflexivity]. split; [split; [|split; [apply (lo_short 2); reflexivity|discriminate]]|].
    - apply (id_low Universal false 3); reflexivity.
    - split; [vm_compute; discriminate|intros n E; injection E as <-; reflexivity]. }
  split; [exists (mk_bits 0 [0xb3] 6); split; reflexivity|reflexivity].
Qed.

(** ** C20: slices that begin inside a byte *)

Lemma shifted_same (head : nat) (bits : list bool) :
  firstn (length bits) (repeat false head ++ bits) = bits <-> head = 0%nat \/ Forall (eq false) bits.
Proof.
  split.
  - intros E. destruct head as [|head]; [left; reflexivity | right]. apply Forall_forall. intros x Hx. apply (In_nth _ _ false) in Hx.
    destruct Hx as (k & Hk & <-). revert Hk. induction k as [k IH] using lt_wf_ind. intros Hk. rewrite <- E.
    rewrite nth_firstn_lt. destruct (Nat.ltb_spec k (length bits)); [|lia].
    destruct (Nat.ltb_spec k (S head)) as [L|L].
    + rewrite app_nth1 by (rewrite repeat_length; exact L). symmetry. apply nth_repeat.
    + rewrite app_nth2 by (rewrite repeat_length; exact L). rewrite repeat_length. apply IH; lia.
  - intros [-> | H]; [cbn; apply firstn_all|].
    assert (X : bits = repeat false (length bits)) by (induction H as [|x l <- _ IH]; [reflexivity|]; cbn [length repeat]; f_equal; exact IH).
    rewrite X at 2 3. rewrite <- repeat_app. rewrite (Nat.add_comm head), repeat_app, <- (repeat_length false (length bits)) at 1.
    rewrite firstn_app, repeat_length, Nat.sub_diag. cbn [firstn]. rewrite app_nil_r. apply firstn_all2. rewrite !repeat_length. lia.
Qed.

(** A slice of [bits] that begins at bit [head] of a byte.  When it touches no more bytes than its length needs, the readers get
    [head] zeros and then the bits, as many as there were: the same bits when [head] is 0 or all of them are zero.  When it
    touches one more, no reader accepts what is written. *)
Theorem C20_slice (head : nat) (bits : list bool) : (head < 8)%nat -> blen bits < 2 ^ 63 ->
  let n := length bits in
  exists enc, to_vec (tober_bitstring (bitstring_from_slice head bits)) = Ok enc
    /\ ((head + n <= 8 * ((n + 7) / 8))%nat ->
        exists b, reads_ber bitstring_codec enc b /\ (forall x, bytes_ok x -> parse_der bitstring_codec (enc ++ x) = Ok (x, b))
          /\ bs_bits b = firstn n (repeat false head ++ bits) /\ (bs_bits b = bits <-> head = 0%nat \/ Forall (eq false) bits))
    /\ ((8 * ((n + 7) / 8) < head + n)%nat -> forall x r b, bytes_ok x ->
        parse_ber bitstring_codec (enc ++ x) <> Ok (r, b) /\ from_ber bitstring_codec (enc ++ x) <> Ok (r, b)
        /\ parse_der bitstring_codec (enc ++ x) <> Ok (r, b) /\ from_der bitstring_codec (enc ++ x) <> Ok (r, b)).
Proof.
  intros Hh Hn n. set (raw := bytes_of_bits (elts (head + n)) (repeat false head ++ bits)).
  assert (R : bytes_ok raw) by apply bytes_of_bits_ok.
  assert (RL : length raw = elts (head + n)) by apply bytes_of_bits_length.
  assert (T : tober_bitstring (bitstring_from_slice head bits) = tober_bitstring (mk_bits 0 raw n)) by reflexivity. rewrite T. clear T.
  pose proof (elts_bound (head + n)) as B1. pose proof (elts_bound n) as B2. fold (elts n).
  assert (Hn' : N.of_nat n < 9223372036854775808) by exact Hn. clear Hn.
  destruct (Nat.le_gt_cases (head + n) (8 * elts n)) as [F|F].
  - assert (E : elts (head + n) = elts n) by lia.
    destruct (aligned_bitstring (mk_bits 0 raw n) eq_refl) as (V & enc & E1 & _ & _ & R1 & R2 & _).
    { cbn [bs_raw bs_len]. lia. } { exact R. } { cbn [bs_raw]. unfold blen. rewrite RL. change (2 ^ 64 - 1) with 18446744073709551615. lia. }
    exists enc. split; [exact E1|]. split; [|intros X; lia]. intros _. exists (mk_bits 0 raw n). split; [exact R1|]. split; [exact R2|].
    assert (Q : bs_bits (mk_bits 0 raw n) = firstn n (repeat false head ++ bits)).
    { unfold bs_bits. cbn [bs_len bs_head bs_raw skipn]. unfold raw. rewrite bits_of_bytes_of, firstn_firstn, Nat.min_l by lia.
      rewrite firstn_app. replace (n - length (repeat false head ++ bits))%nat with 0%nat by (rewrite app_length, repeat_length; unfold n; lia). cbn [firstn]. apply app_nil_r. }
    split; [exact Q|]. rewrite Q. apply shifted_same.
  - assert (E : (elts (head + n) = S (elts n))%nat) by lia.
    set (w := tober_bitstring (mk_bits 0 raw n)).
    assert (CL : tb_content_len w = Definite (N.of_nat (S (elts n)))).
    { unfold w, tober_bitstring. cbn [tb_content_len bs_len]. f_equal. pose proof (elts_N n). lia. }
    assert (SM : N.of_nat (S (elts n)) < 2 ^ 64) by (change (2 ^ 64) with 18446744073709551616; lia).
    destruct (write_header_ok w Universal false 3 eq_refl) as (idb & lenb & E1 & H6 & S1 & S2).
    { rewrite CL. split; [reflexivity|]. intros m Em. injection Em as <-. exact SM. }
    rewrite CL in S2. pose proof (readable_written Universal false 3 _ idb lenb eq_refl SM H6 S1 S2) as HR.
    set (u := (8 * blen raw - N.of_nat n) mod 256).
    assert (U : 8 <= u < 256).
    { unfold u, blen. rewrite RL. rewrite N.mod_small by lia. lia. }
    assert (W : to_vec w = Ok (idb ++ lenb ++ u :: raw)).
    { unfold to_vec, encode. rewrite E1. unfold w, tober_bitstring. cbn [tb_write_content bs_raw bs_len wseq bind]. fold u. rewrite <- app_assoc. reflexivity. }
    exists (idb ++ lenb ++ u :: raw). split; [exact W|]. split; [intros X; lia|]. intros _ x r b Hx.
    set (c1 := u :: firstn (elts n) raw). set (tail := skipn (elts n) raw ++ x).
    assert (EI : (idb ++ lenb ++ u :: raw) ++ x = idb ++ lenb ++ c1 ++ tail).
    { rewrite <- !app_assoc. unfold c1, tail. cbn [app]. rewrite (app_assoc (firstn _ _)), firstn_skipn. reflexivity. }
    rewrite EI. assert (OKc : bytes_ok (c1 ++ tail)).
    { unfold c1, tail. cbn [app]. rewrite (app_assoc (firstn _ _)), firstn_skipn. constructor; [lia|]. apply bytes_ok_app. auto. }
    assert (OKi : bytes_ok (idb ++ lenb ++ c1 ++ tail)).
    { destruct HR as [(A & C & _) _]. apply bytes_ok_app. split; [eapply ident_octets_ok; exact A|]. apply bytes_ok_app. split; [eapply length_octets_ok; exact C | exact OKc]. }
    assert (Oc : bytes_ok c1) by (apply bytes_ok_app in OKc; apply OKc).
    assert (C1 : blen c1 = N.of_nat (S (elts n))) by (unfold c1, blen; cbn [length]; rewrite firstn_length, RL; lia).
    assert (BAD : forall h r b, h_length h = Definite (blen c1) -> h_constructed h = false -> bitstring_ber_content h c1 <> Ok (r, b)).
    { intros h r' b' Hl K X. apply bitstring_content_prim in X; [|exact Oc | unfold fits; rewrite Hl; reflexivity | exact K].
      destruct X as (u' & bs & X & Y & _). injection X as <- _. lia. }
    assert (PB : forall r b, parse_ber bitstring_codec (idb ++ lenb ++ c1 ++ tail) <> Ok (r, b)).
    { intros r' b' X. apply parse_ber_iff in X; [|exact OKi]. destruct X as (c & k & t & l & idb' & lenb' & bs & q & HR' & EQ & CO & AC & P).
      assert (OKb : bytes_ok (bs ++ r')) by (rewrite EQ, !bytes_ok_app in OKi; apply bytes_ok_app; tauto).
      destruct (readable_det _ _ _ _ _ _ _ _ _ _ _ _ _ _ HR HR' OKc OKb EQ) as (<- & <- & _ & <- & _ & _ & E3).
      apply contents_definite_len in CO. apply app_inj_pre in E3 as [E3 _]; [|apply Nat2N.inj; unfold blen in *; lia]. subst bs. cbn [content_of] in P.
      refine (BAD _ _ _ _ _ P); [rewrite C1; reflexivity | reflexivity]. }
    split; [apply PB|]. split; [|split].
    + intros X. apply from_ber_parse_ber in X; [|intros a; reflexivity | exact OKi]. exact (PB _ _ X).
    + intros X. apply parse_der_iff in X; [|exact OKi]. destruct X as (c & k & t & idb' & lenb' & bs & q & HR' & EQ & AC & P).
      assert (OKb : bytes_ok (bs ++ r)) by (rewrite EQ, !bytes_ok_app in OKi; apply bytes_ok_app; tauto).
      destruct (readable_det _ _ _ _ _ _ _ _ _ _ _ _ _ _ HR HR' OKc OKb EQ) as (<- & <- & _ & CO & _ & _ & E3). injection CO as CO.
      apply app_inj_pre in E3 as [E3 _]; [|apply Nat2N.inj; unfold blen in *; lia]. subst bs.
      cbn [der_content bitstring_codec] in P. unfold bitstring_der_content in P. apply bind_ok in P as (z & _ & P).
      refine (BAD _ _ _ _ _ P); [reflexivity | reflexivity].
    + intros X. unfold from_der in X. apply bind_ok in X as ([r' a] & F1 & X). apply bind_ok in X as ([] & _ & X).
      apply any_der_ber in F1; [|exact OKi]. assert (FB : from_ber bitstring_codec (idb ++ lenb ++ c1 ++ tail) = Ok (r, b)).
      { unfold from_ber. rewrite F1. exact X. }
      apply from_ber_parse_ber in FB; [|intros z; reflexivity | exact OKi]. exact (PB _ _ FB).
Qed.
Print Assumptions C20_slice.

(** Five bits from bit 2 on fit into one byte: 10110 comes back as 00101.  Seven bits from bit 2 on do not. *)
Example C20_slice_case :
  to_vec (tober_bitstring (bitstring_from_slice 2 [true; false; true; true; false])) = Ok [3; 2; 3; 0x2c]
  /\ (exists b, parse_ber bitstring_codec [3; 2; 3; 0x2c] = Ok ([], b) /\ bs_bits b = [false; false; true; false; true])
  /\ to_vec (tober_bitstring (bitstring_from_slice 2 (repeat true 7))) = Ok [3; 2; 9; 0x3f; 0x80]
  /\ parse_ber bitstring_codec [3; 2; 9; 0x3f; 0x80] = Err EInvalidValue.
Proof. split; [vm_compute; reflexivity|]. split; [eexists; split; vm_compute; reflexivity|]. split; vm_compute; reflexivity. Qed.
