(** Properties of INTEGER, ENUMERATED, BOOLEAN and NULL: C13, C14, C15, C16, C17, C18, C21, C43. *)
From Verif Require Import Base MHeader MEncode SHeader PArith PHeader PEncode MBer SBer PBer PIter
  MInt SInt PCodec PInt.

(** All four entry points read [enc ++ x] as [v] followed by [x]. *)
Definition reads_der {T} (p : codec T) (enc : bytes) (v : T) : Prop :=
  forall x, bytes_ok x -> parse_der p (enc ++ x) = Ok (x, v) /\ from_der p (enc ++ x) = Ok (x, v).
Definition reads_ber {T} (p : codec T) (enc : bytes) (v : T) : Prop :=
  forall x, bytes_ok x -> parse_ber p (enc ++ x) = Ok (x, v) /\ from_ber p (enc ++ x) = Ok (x, v).

(** ** C13: round trip *)

Lemma writes_integer tag (d : bytes) (r : res bytes) :
  r = Ok d ->
  writes (mk_tober (EncPrimitive tag) Universal false tag (integer_data_len r) (write_integer_data r))
         Universal false tag d.
Proof. intros ->. repeat split. Qed.

Lemma der_reads_int w d v :
  (1 <= w)%nat -> bytes_ok d -> shortest d -> v = twos d -> in_signed w v ->
  ber_reads (int_codec w) Universal false 2 d v /\ der_reads (int_codec w) Universal false 2 d v.
Proof.
  intros Hw Hd Hs -> Hv. pose proof (shortest_len w d Hw Hd Hs Hv) as L.
  assert (B : forall h, h_constructed h = false -> int_ber_content w h d = Ok ([], twos d)).
  { intros h Hh. apply int_ber_content_ok; [assumption|assumption|]. auto 8. }
  assert (D : forall h, h_constructed h = false -> int_der_content w h d = Ok ([], twos d)).
  { intros h Hh. apply int_der_content_ok; [assumption|assumption|]. auto 8. }
  assert (F : forall rt rh, try_from_any (int_codec w)
     (mk_any (mk_header Universal false 2 (Definite (blen d)) rt rh) d) = Ok (twos d)).
  { intros rt rh. apply default_try_from_ok. split; [reflexivity|]. exists []. apply B. reflexivity. }
  split; (split; [reflexivity|]); intros rt rh h; (split; [exists []|]).
  - apply B. reflexivity.
  - apply F.
  - apply D. reflexivity.
  - split; [apply F|]. apply check_der_int_ok; [exact Hd|]. split; [reflexivity|]. split; [discriminate|exact Hs].
Qed.

Lemma der_reads_uint w d v :
  (1 <= w)%nat -> bytes_ok d -> shortest d -> v = twos d -> in_unsigned w v ->
  ber_reads (uint_codec w) Universal false 2 d v /\ der_reads (uint_codec w) Universal false 2 d v.
Proof.
  intros Hw Hd Hs -> Hv.
  assert (B : forall h, h_constructed h = false -> uint_ber_content w h d = Ok ([], twos d)).
  { intros h Hh. apply uint_ber_content_ok; [assumption|assumption|]. auto 8. }
  assert (D : forall h, h_constructed h = false -> uint_der_content w h d = Ok ([], twos d)).
  { intros h Hh. apply uint_der_content_ok; [assumption|assumption|]. auto 8. }
  assert (F : forall rt rh, try_from_any (uint_codec w)
     (mk_any (mk_header Universal false 2 (Definite (blen d)) rt rh) d) = Ok (twos d)).
  { intros rt rh. apply default_try_from_ok. split; [reflexivity|]. exists []. apply B. reflexivity. }
  split; (split; [reflexivity|]); intros rt rh h; (split; [exists []|]).
  - apply B. reflexivity.
  - apply F.
  - apply D. reflexivity.
  - split; [apply F|]. apply check_der_int_ok; [exact Hd|]. split; [reflexivity|]. split; [discriminate|exact Hs].
Qed.

Lemma width_len w (d : bytes) : (w <= 16)%nat -> (length d <= S w)%nat -> blen d < 2 ^ 64.
Proof. intros. change (2 ^ 64) with 18446744073709551616. unfold blen. lia. Qed.

(** [w] bytes: 1, 2, 4, 8, 16 for i8/u8, ..., i128/u128; 8 for isize/usize. *)
Theorem C13_integer_roundtrip (w : nat) (v : Z) :
  (1 <= w <= 16)%nat ->
  (in_signed w v ->
   exists enc, to_vec (tober_int w v) = Ok enc /\ reads_der (int_codec w) enc v /\ reads_ber (int_codec w) enc v)
  /\ (in_unsigned w v ->
   exists enc, to_vec (tober_uint w v) = Ok enc /\ reads_der (uint_codec w) enc v /\ reads_ber (uint_codec w) enc v).
Proof.
  intros [Hw Hw16]. split; intros Hv.
  - destruct (integer_from_int_ok w v Hw Hv) as (d & E & Hs & <- & Hd & Hl).
    destruct (der_reads_int w d _ Hw Hd Hs eq_refl Hv) as [RB RD].
    pose proof (width_len w d Hw16 Hl) as Hn.
    pose proof (writes_integer 2 d _ E) as W.
    destruct (roundtrip_der _ _ _ _ _ _ _ W RD eq_refl Hn Hd) as (enc & E1 & _ & R1).
    destruct (roundtrip_ber _ _ _ _ _ _ _ W RB eq_refl Hn Hd) as (enc' & E2 & _ & R2).
    exists enc. split; [exact E1|]. split; [exact R1|].
    assert (Ok enc = Ok enc') as EE by (rewrite <- E1; exact E2). injection EE as ->. exact R2.
  - destruct (integer_from_uint_ok w v Hw Hv) as (d & E & Hs & <- & Hd & Hl).
    destruct (der_reads_uint w d _ Hw Hd Hs eq_refl Hv) as [RB RD].
    pose proof (width_len w d Hw16 Hl) as Hn.
    pose proof (writes_integer 2 d _ E) as W.
    destruct (roundtrip_der _ _ _ _ _ _ _ W RD eq_refl Hn Hd) as (enc & E1 & _ & R1).
    destruct (roundtrip_ber _ _ _ _ _ _ _ W RB eq_refl Hn Hd) as (enc' & E2 & _ & R2).
    exists enc. split; [exact E1|]. split; [exact R1|].
    assert (Ok enc = Ok enc') as EE by (rewrite <- E1; exact E2). injection EE as ->. exact R2.
Qed.
Print Assumptions C13_integer_roundtrip.

(** The arbitrary-precision [Integer]: any non-empty content round trips through BER, any shortest one
    through DER. *)
Theorem C13_bigint_roundtrip (d : bytes) :
  bytes_ok d -> d <> [] -> blen d < 2 ^ 64 ->
  exists enc, to_vec (tober_integer d) = Ok enc /\ reads_ber integer_codec enc d
    /\ (shortest d -> reads_der integer_codec enc d).
Proof.
  intros Hd Hne Hn.
  assert (W : writes (tober_integer d) Universal false 2 d) by (repeat split).
  assert (B : forall h, h_constructed h = false -> h_length h = Definite (blen d) ->
     integer_ber_content h d = Ok ([], d)).
  { intros h H1 H2. apply integer_ber_content_ok. rewrite app_nil_r. auto. }
  assert (F : forall rt rh, try_from_any integer_codec
     (mk_any (mk_header Universal false 2 (Definite (blen d)) rt rh) d) = Ok d).
  { intros rt rh. apply default_try_from_ok. split; [reflexivity|]. exists []. apply B; reflexivity. }
  assert (RB : ber_reads integer_codec Universal false 2 d d).
  { split; [reflexivity|]. intros rt rh h. split; [exists []; apply B; reflexivity|apply F]. }
  destruct (roundtrip_ber _ _ _ _ _ _ _ W RB eq_refl Hn Hd) as (enc & E & _ & R).
  exists enc. split; [exact E|]. split; [exact R|]. intros Hs.
  assert (RD : der_reads integer_codec Universal false 2 d d).
  { split; [reflexivity|]. intros rt rh h. split; [|split; [apply F|]].
    - exists []. cbn [der_content integer_codec]. unfold integer_der_content.
      rewrite (proj2 (check_der_int_input_ok d Hd) (proj1 (shortest_iff d Hd) Hs)). cbn [bind].
      apply B; reflexivity.
    - apply check_der_int_ok; [exact Hd|]. split; [reflexivity|]. split; [discriminate|exact Hs]. }
  destruct (roundtrip_der _ _ _ _ _ _ _ W RD eq_refl Hn Hd) as (enc' & E2 & _ & R2).
  assert (Ok enc = Ok enc') as EE by (rewrite <- E; exact E2). injection EE as ->. exact R2.
Qed.
Print Assumptions C13_bigint_roundtrip.

Example C13_case :
  to_vec (tober_int 8 (-129)) = Ok [2; 2; 0xff; 0x7f] /\ in_signed 8 (-129)
  /\ from_der (int_codec 8) ([2; 2; 0xff; 0x7f] ++ [1; 2]) = Ok ([1; 2], (-129)%Z)
  /\ to_vec (tober_uint 16 (2 ^ 127)) = Ok (2 :: 17 :: 0 :: 0x80 :: repeat 0 15).
Proof. vm_compute. repeat split; discriminate. Qed.

(** ** C14: minimal two's complement *)

Theorem C14_integer_minimal (w : nat) (v : Z) :
  (1 <= w)%nat ->
  (in_signed w v -> exists d, tb_write_content (tober_int w v) = Ok (d, blen d)
     /\ tb_content_len (tober_int w v) = Definite (blen d) /\ twos d = v /\ shortest d)
  /\ (in_unsigned w v -> exists d, tb_write_content (tober_uint w v) = Ok (d, blen d)
     /\ tb_content_len (tober_uint w v) = Definite (blen d) /\ twos d = v /\ shortest d).
Proof.
  intros Hw. split; intros Hv.
  - destruct (integer_from_int_ok w v Hw Hv) as (d & E & Hs & Ht & Hd & Hl). exists d.
    unfold tober_int. cbn [tb_write_content tb_content_len]. rewrite E. auto.
  - destruct (integer_from_uint_ok w v Hw Hv) as (d & E & Hs & Ht & Hd & Hl). exists d.
    unfold tober_uint. cbn [tb_write_content tb_content_len]. rewrite E. auto.
Qed.
Print Assumptions C14_integer_minimal.

Example C14_case :
  twos [0xff; 0x7f] = (-129)%Z /\ shortest [0xff; 0x7f]
  /\ tb_write_content (tober_int 16 (-129)) = Ok ([0xff; 0x7f], 2).
Proof.
  split; [reflexivity|]. split; [|vm_compute; reflexivity].
  apply shortest_iff; [repeat constructor|]. split; lia.
Qed.

(** ** C15: DER integers are canonical *)

Theorem C15_der_integer (w : nat) (i rem : bytes) (v : Z) :
  (1 <= w)%nat -> bytes_ok i ->
  let signed := exists c content, starts_with_object c false 2 content i rem
                  /\ shortest content /\ v = twos content /\ in_signed w v in
  let unsigned := exists c content, starts_with_object c false 2 content i rem
                  /\ shortest content /\ v = twos content /\ in_unsigned w v in
  (parse_der (int_codec w) i = Ok (rem, v) <-> signed)
  /\ (from_der (int_codec w) i = Ok (rem, v) <-> signed)
  /\ (parse_der (uint_codec w) i = Ok (rem, v) <-> unsigned)
  /\ (from_der (uint_codec w) i = Ok (rem, v) <-> unsigned).
Proof.
  intros Hw Hi. cbv zeta.
  assert (G : forall P : bytes -> Prop, (exists c k content, starts_with_object c k 2 content i rem
     /\ (k = false /\ P content)) <-> exists c content, starts_with_object c false 2 content i rem /\ P content).
  { intros P. split.
    - intros (c & k & content & H & -> & Q). eauto.
    - intros (c & content & H & Q). exists c, false, content. auto. }
  split; [|split; [|split]].
  - rewrite (parse_der_spec (int_codec w) 2 (fun k d v => k = false /\ shortest d /\ v = twos d /\ in_signed w v));
      [apply G|reflexivity| |exact Hi].
    intros h d v' Hd _. cbn [der_content int_codec]. split.
    + intros [r E]. apply int_der_content_ok in E; tauto.
    + intros H. exists []. apply int_der_content_ok; tauto.
  - rewrite (from_der_spec (int_codec w) 2 (fun k d v => k = false /\ shortest d /\ v = twos d /\ in_signed w v));
      [apply G|intros a; reflexivity|reflexivity| |exact Hi].
    intros h d v' Hd Hl. cbn [ber_content check_constraints int_codec].
    rewrite check_der_int_ok by exact Hd. cbn [any_header any_data]. split.
    + intros ((H1 & H2 & H3) & r & E). apply int_ber_content_ok in E; tauto.
    + intros (H1 & H2 & H3 & H4). rewrite Hl. split; [split; [exact H1|split; [discriminate|exact H2]]|].
      exists []. apply int_ber_content_ok; [assumption|assumption|].
      split; [exact H1|]. split; [reflexivity|]. split; [exact H3|]. split; [exact H4|]. intros _. apply shortest_len; try assumption. rewrite <- H3. exact H4.
  - rewrite (parse_der_spec (uint_codec w) 2 (fun k d v => k = false /\ shortest d /\ v = twos d /\ in_unsigned w v));
      [apply G|reflexivity| |exact Hi].
    intros h d v' Hd _. cbn [der_content uint_codec]. split.
    + intros [r E]. apply uint_der_content_ok in E; tauto.
    + intros H. exists []. apply uint_der_content_ok; tauto.
  - rewrite (from_der_spec (uint_codec w) 2 (fun k d v => k = false /\ shortest d /\ v = twos d /\ in_unsigned w v));
      [apply G|intros a; reflexivity|reflexivity| |exact Hi].
    intros h d v' Hd Hl. cbn [ber_content check_constraints uint_codec].
    rewrite check_der_int_ok by exact Hd. cbn [any_header any_data]. split.
    + intros ((H1 & H2 & H3) & r & E). apply uint_ber_content_ok in E; tauto.
    + intros (H1 & H2 & H3 & H4). rewrite Hl. split; [split; [exact H1|split; [discriminate|exact H2]]|].
      exists []. apply uint_ber_content_ok; [assumption|assumption|]. auto.
Qed.
Print Assumptions C15_der_integer.

(** Canonicity: two contents accepted with the same value are the same bytes. *)
Theorem C15_der_canonical (w : nat) (c1 c2 : class) (d1 d2 i1 i2 r1 r2 : bytes) (v : Z) :
  (1 <= w)%nat -> bytes_ok i1 -> bytes_ok i2 ->
  starts_with_object c1 false 2 d1 i1 r1 -> starts_with_object c2 false 2 d2 i2 r2 ->
  (from_der (int_codec w) i1 = Ok (r1, v) /\ from_der (int_codec w) i2 = Ok (r2, v)
   \/ from_der (uint_codec w) i1 = Ok (r1, v) /\ from_der (uint_codec w) i2 = Ok (r2, v)) ->
  d1 = d2.
Proof.
  intros Hw Hi1 Hi2 S1 S2 H.
  assert (U : forall c c' d d' i r, bytes_ok i -> starts_with_object c false 2 d i r ->
     starts_with_object c' false 2 d' i r -> d = d' /\ bytes_ok d).
  { intros c c' d d' i r Hi (t & idb & lenb & HR & _ & E) (t' & idb' & lenb' & HR' & _ & E').
    assert (O : forall idb lenb (d : bytes), i = idb ++ lenb ++ d ++ r -> bytes_ok d /\ bytes_ok (d ++ r)).
    { intros x y z Ei. rewrite Ei in Hi. apply bytes_ok_app in Hi as [_ Hi]. apply bytes_ok_app in Hi as [_ Hi].
      split; [apply bytes_ok_app in Hi; apply Hi|exact Hi]. }
    split; [|apply (O _ _ _ E)].
    destruct (readable_det _ _ _ _ _ _ _ _ _ _ _ _ (d ++ r) (d' ++ r) HR HR'
      (proj2 (O _ _ _ E)) (proj2 (O _ _ _ E')) (eq_trans (eq_sym E) E')) as (_ & _ & _ & _ & _ & _ & EE).
    apply app_inv_tail in EE. exact EE. }
  assert (K : (exists c content, starts_with_object c false 2 content i1 r1 /\ shortest content /\ v = twos content)
           /\ (exists c content, starts_with_object c false 2 content i2 r2 /\ shortest content /\ v = twos content)).
  { destruct (C15_der_integer w i1 r1 v Hw Hi1) as (_ & A1 & _ & B1).
    destruct (C15_der_integer w i2 r2 v Hw Hi2) as (_ & A2 & _ & B2).
    destruct H as [[H1 H2]|[H1 H2]].
    - apply A1 in H1 as (c & d & H1a & H1b & H1c & _). apply A2 in H2 as (c' & d' & H2a & H2b & H2c & _).
      split; [exists c, d; auto|exists c', d'; auto].
    - apply B1 in H1 as (c & d & H1a & H1b & H1c & _). apply B2 in H2 as (c' & d' & H2a & H2b & H2c & _).
      split; [exists c, d; auto|exists c', d'; auto]. }
  destruct K as [(c & d & K1 & K2 & K3) (c' & d' & K1' & K2' & K3')].
  destruct (U _ _ _ _ _ _ Hi1 S1 K1) as [-> O1]. destruct (U _ _ _ _ _ _ Hi2 S2 K1') as [-> O2].
  apply shortest_unique; try assumption. congruence.
Qed.
Print Assumptions C15_der_canonical.

Example C15_case :
  starts_with_object Universal false 2 [0x00; 0x80] [2; 2; 0x00; 0x80; 7] [7]
  /\ from_der (uint_codec 1) [2; 2; 0x00; 0x80; 7] = Ok ([7], 128%Z)
  /\ from_der (uint_codec 1) [2; 2; 0x00; 0x7f; 7] = Err (EDerConstraintFailed DCIntegerLeadingZeroes).
Proof.
  split; [|vm_compute; split; reflexivity]. exists 2, [2], [2]. split; [|split; reflexivity].
  split; [split; [apply (id_low Universal false 2); reflexivity|split; [apply (lo_short 2); reflexivity|discriminate]]|].
  split; [vm_compute; discriminate|intros n E; injection E as <-; reflexivity].
Qed.

(** ** C16: no silent truncation *)

(** Exactly which BER contents are accepted, and their value.  An over-long content of a negative
    number is rejected by the signed types even when its value fits. *)
Theorem C16_ber_integer (w : nat) (i rem : bytes) (v : Z) :
  (1 <= w)%nat -> bytes_ok i ->
  let signed := exists c content, starts_with_object c false 2 content i rem
                  /\ v = twos content /\ in_signed w v /\ ((v < 0)%Z -> (length content <= w)%nat) in
  let unsigned := exists c content, starts_with_object c false 2 content i rem
                  /\ v = twos content /\ in_unsigned w v in
  (parse_ber (int_codec w) i = Ok (rem, v) <-> signed)
  /\ (from_ber (int_codec w) i = Ok (rem, v) <-> signed)
  /\ (parse_ber (uint_codec w) i = Ok (rem, v) <-> unsigned)
  /\ (from_ber (uint_codec w) i = Ok (rem, v) <-> unsigned).
Proof.
  intros Hw Hi. cbv zeta.
  rewrite (from_ber_parse_ber (int_codec w)) by (try exact Hi; intros a; reflexivity).
  rewrite (from_ber_parse_ber (uint_codec w)) by (try exact Hi; intros a; reflexivity).
  assert (A : parse_ber (int_codec w) i = Ok (rem, v) <-> exists c content,
     starts_with_object c false 2 content i rem
     /\ v = twos content /\ in_signed w v /\ ((v < 0)%Z -> (length content <= w)%nat)).
  { apply (parse_ber_prim_spec (int_codec w) 2 (fun d v => v = twos d /\ in_signed w v
      /\ ((v < 0)%Z -> (length d <= w)%nat))); try exact Hi; try reflexivity.
    - intros h d v' Hd _. cbn [ber_content int_codec]. split.
      + intros [r E]. apply int_ber_content_ok in E; tauto.
      + intros H. exists []. apply int_ber_content_ok; tauto.
    - intros h d r v'. cbn [ber_content int_codec]. unfold int_ber_content, assert_primitive.
      destruct (h_constructed h); [discriminate|reflexivity]. }
  assert (B : parse_ber (uint_codec w) i = Ok (rem, v) <-> exists c content,
     starts_with_object c false 2 content i rem /\ v = twos content /\ in_unsigned w v).
  { apply (parse_ber_prim_spec (uint_codec w) 2 (fun d v => v = twos d /\ in_unsigned w v)); try exact Hi; try reflexivity.
    - intros h d v' Hd _. cbn [ber_content uint_codec]. split.
      + intros [r E]. apply uint_ber_content_ok in E; tauto.
      + intros H. exists []. apply uint_ber_content_ok; tauto.
    - intros h d r v'. cbn [ber_content uint_codec]. unfold uint_ber_content, assert_primitive.
      destruct (h_constructed h); [discriminate|reflexivity]. }
  tauto.
Qed.
Print Assumptions C16_ber_integer.

Example C16_case :
  from_ber (int_codec 2) [2; 4; 0; 0; 0x12; 0x34] = Ok ([], 0x1234%Z)
  /\ from_ber (int_codec 2) [2; 3; 0; 0x80; 0x00] = Err EIntegerTooLarge
  /\ from_ber (uint_codec 2) [2; 2; 0x80; 0x00] = Err EIntegerNegative.
Proof. vm_compute. repeat split. Qed.

(** ** C17: conversions of [Integer] *)

Lemma integer_as_int w d v :
  (1 <= w)%nat -> bytes_ok d ->
  (integer_as (int_codec w) d = Ok v <->
   v = twos d /\ in_signed w v /\ ((v < 0)%Z -> (length d <= w)%nat)).
Proof.
  intros Hw Hd. unfold integer_as, any_from_tag_and_data. cbn [try_from_any int_codec].
  rewrite default_try_from_ok. split.
  - intros [_ [r E]]. apply int_ber_content_ok in E; tauto.
  - intros H. split; [reflexivity|]. exists []. apply int_ber_content_ok; try assumption. tauto.
Qed.

Lemma integer_as_uint w d v :
  (1 <= w)%nat -> bytes_ok d ->
  (integer_as (uint_codec w) d = Ok v <-> v = twos d /\ in_unsigned w v).
Proof.
  intros Hw Hd. unfold integer_as, any_from_tag_and_data. cbn [try_from_any uint_codec].
  rewrite default_try_from_ok. split.
  - intros [_ [r E]]. apply uint_ber_content_ok in E; tauto.
  - intros H. split; [reflexivity|]. exists []. apply uint_ber_content_ok; try assumption. tauto.
Qed.

(** [Integer::from(v)] for a [v] of one type, then [as_..] to any other type: the value when it is in
    range there, no value otherwise. *)
Theorem C17_integer_conversions (w w' : nat) (v : Z) (d : bytes) :
  (1 <= w)%nat -> (1 <= w')%nat ->
  (in_signed w v /\ integer_from_int w v = Ok d \/ in_unsigned w v /\ integer_from_uint w v = Ok d) ->
  (forall v', integer_as (int_codec w') d = Ok v' <-> v' = v /\ in_signed w' v)
  /\ (forall v', integer_as (uint_codec w') d = Ok v' <-> v' = v /\ in_unsigned w' v)
  /\ (forall n, as_biguint d = Ok n <-> Z.of_N n = v).
Proof.
  intros Hw Hw' H.
  assert (K : shortest d /\ twos d = v /\ bytes_ok d).
  { destruct H as [[H E]|[H E]].
    - destruct (integer_from_int_ok w v Hw H) as (d' & E' & K1 & K2 & K3 & _).
      rewrite E in E'. injection E' as <-. auto.
    - destruct (integer_from_uint_ok w v Hw H) as (d' & E' & K1 & K2 & K3 & _).
      rewrite E in E'. injection E' as <-. auto. }
  destruct K as (Hs & <- & Hd). split; [|split].
  - intros v'. rewrite integer_as_int by assumption. split.
    + intros (-> & R & _). auto.
    + intros (-> & R). repeat split; try apply R. intros _. apply shortest_len; assumption.
  - intros v'. rewrite integer_as_uint by assumption. split.
    + intros (-> & R). auto.
    + intros (-> & R). auto.
  - intros n. unfold as_biguint. rewrite high_bit_twos by exact Hd.
    destruct (Z.ltb_spec (twos d) 0).
    + split; [discriminate|]. lia.
    + rewrite (twos_val_nonneg d Hd H0). unfold val. change (of_be_bytes d) with (value_be 256 d). split.
      * intros E. injection E as ->. reflexivity.
      * intros E. f_equal. lia.
Qed.
Print Assumptions C17_integer_conversions.

Example C17_case :
  integer_from_int 16 (-32768) = Ok [0x80; 0x00] /\ integer_as (int_codec 2) [0x80; 0x00] = Ok (-32768)%Z
  /\ integer_as (int_codec 1) [0x80; 0x00] = Err EIntegerTooLarge
  /\ integer_as (uint_codec 4) [0x80; 0x00] = Err EIntegerNegative.
Proof. vm_compute. repeat split. Qed.

(** ** C18: BOOLEAN and NULL *)

Definition octet_bool (o : N) : bool := if o =? 0 then false else true.

Lemma boolean_ber_content_ok h d o :
  bytes_ok d -> h_length h = Definite (blen d) ->
  ((exists r, boolean_ber_content h d = Ok (r, o)) <-> h_constructed h = false /\ d = [o]).
Proof.
  intros Hd Hl. unfold boolean_ber_content, assert_primitive.
  destruct (h_constructed h); [split; [intros [r E]; discriminate|intros [E _]; discriminate]|]. cbn [bind].
  rewrite Hl. cbn [blength_eqb]. destruct d as [|x [|y d]].
  - split; [intros [r E]; discriminate|intros [_ E]; discriminate].
  - cbn. split; [intros [r E]; injection E as _ ->; auto|intros [_ E]; injection E as ->; eexists; reflexivity].
  - destruct (N.eqb_spec (blen (x :: y :: d)) 1) as [E|E]; [unfold blen in E; cbn in E; lia|].
    split; [intros [r E']; discriminate|intros [_ E']; discriminate].
Qed.

Lemma boolean_ber_primitive h d r o : boolean_ber_content h d = Ok (r, o) -> h_constructed h = false.
Proof. unfold boolean_ber_content, assert_primitive. destruct (h_constructed h); [discriminate|reflexivity]. Qed.

Lemma map_snd_ok {A B} (f : A -> B) x r b :
  map_snd f x = Ok (r, b) <-> exists a, x = Ok (r, a) /\ b = f a.
Proof.
  unfold map_snd. rewrite bind_ok. split.
  - intros ([r' a] & E & E'). injection E' as -> <-. eauto.
  - intros (a & E & ->). exists (r, a). auto.
Qed.

Theorem C18_boolean_ber (i rem : bytes) (b : bool) (o : N) :
  bytes_ok i ->
  (from_ber bool_codec i = Ok (rem, b) <->
     exists c o, starts_with_object c false 1 [o] i rem /\ b = octet_bool o)
  /\ (parse_ber bool_codec i = Ok (rem, b) <->
     exists c o, starts_with_object c false 1 [o] i rem /\ b = octet_bool o)
  /\ (from_ber boolean_codec i = Ok (rem, o) <-> exists c, starts_with_object c false 1 [o] i rem)
  /\ (parse_ber boolean_codec i = Ok (rem, o) <-> exists c, starts_with_object c false 1 [o] i rem).
Proof.
  intros Hi. rewrite !from_ber_parse_ber by (try exact Hi; intros a; reflexivity).
  assert (A : parse_ber bool_codec i = Ok (rem, b) <->
     exists c o, starts_with_object c false 1 [o] i rem /\ b = octet_bool o).
  { rewrite (parse_ber_prim_spec bool_codec 1 (fun d v => exists o, d = [o] /\ v = octet_bool o)); try exact Hi; try reflexivity.
    - split.
      + intros (c & d & S & o' & -> & ->). eauto.
      + intros (c & o' & S & ->). eauto 6.
    - intros h d v Hd Hl. cbn [ber_content bool_codec]. split.
      + intros [r E]. apply map_snd_ok in E as (a & E & ->).
        destruct (proj1 (boolean_ber_content_ok h d a Hd Hl) (ex_intro _ r E)) as [K ->].
        split; [exact K|]. exists a. split; [reflexivity|]. unfold to_bool, octet_bool. destruct (a =? 0); reflexivity.
      + intros (K & o' & -> & ->). destruct (proj2 (boolean_ber_content_ok h [o'] o' Hd Hl) (conj K eq_refl)) as [r E].
        exists r. apply map_snd_ok. exists o'. split; [exact E|]. unfold to_bool, octet_bool. destruct (o' =? 0); reflexivity.
    - intros h d r v E. apply map_snd_ok in E as (a & E & _). eapply boolean_ber_primitive; eassumption. }
  assert (B : parse_ber boolean_codec i = Ok (rem, o) <-> exists c, starts_with_object c false 1 [o] i rem).
  { rewrite (parse_ber_prim_spec boolean_codec 1 (fun d v => d = [v])); try exact Hi; try reflexivity.
    - split.
      + intros (c & d & S & ->). eauto.
      + intros (c & S). eauto.
    - intros h d v Hd Hl. apply boolean_ber_content_ok; assumption.
    - apply boolean_ber_primitive. }
  tauto.
Qed.
Print Assumptions C18_boolean_ber.

Theorem C18_boolean_der (i rem : bytes) (b : bool) (o : N) :
  bytes_ok i ->
  let accepted := exists c, starts_with_object c false 1 [if b then 0xff else 0x00] i rem in
  let accepted_octet := (exists c, starts_with_object c false 1 [o] i rem) /\ (o = 0x00 \/ o = 0xff) in
  (from_der bool_codec i = Ok (rem, b) <-> accepted)
  /\ (parse_der bool_codec i = Ok (rem, b) <-> accepted)
  /\ (from_der boolean_codec i = Ok (rem, o) <-> accepted_octet)
  /\ (parse_der boolean_codec i = Ok (rem, o) <-> accepted_octet).
Proof.
  intros Hi. cbv zeta.
  set (Q := fun (k : bool) (d : bytes) (v : N) => k = false /\ d = [v] /\ (v = 0x00 \/ v = 0xff)).
  set (P := fun (k : bool) (d : bytes) (v : bool) => k = false /\ d = [if v then 0xff else 0x00]).
  assert (P1 : (exists c k content, starts_with_object c k 1 content i rem /\ P k content b)
               <-> exists c, starts_with_object c false 1 [if b then 0xff else 0x00] i rem).
  { split; [intros (c & k & d & S & -> & ->); eauto|]. intros [c S]. exists c, false. eexists. split; [exact S|].
    split; reflexivity. }
  assert (Q1 : (exists c k content, starts_with_object c k 1 content i rem /\ Q k content o)
               <-> (exists c, starts_with_object c false 1 [o] i rem) /\ (o = 0x00 \/ o = 0xff)).
  { split; [intros (c & k & d & S & -> & -> & V); eauto|]. intros [[c S] V]. exists c, false. eexists. split; [exact S|].
    repeat split. exact V. }
  assert (D : forall h d v, bytes_ok d -> h_length h = Definite (blen d) ->
     ((exists r, boolean_der_content h d = Ok (r, v)) <-> Q (h_constructed h) d v)).
  { intros h d v Hd Hl. unfold boolean_der_content, Q. split.
    - intros [r E]. apply bind_ok in E as ([r' x] & E & E').
      destruct (proj1 (boolean_ber_content_ok h d x Hd Hl) (ex_intro _ r' E)) as [K ->].
      destruct ((x =? 0) || (x =? 0xff)) eqn:V; [|discriminate]. injection E' as -> ->.
      repeat split; [exact K|]. lia.
    - intros (K & -> & V). destruct (proj2 (boolean_ber_content_ok h [v] v Hd Hl) (conj K eq_refl)) as [r E].
      exists r. rewrite E. cbn [bind]. destruct V as [-> | ->]; reflexivity. }
  assert (C : forall h d v, bytes_ok d -> h_length h = Definite (blen d) ->
     ((boolean_check (mk_any h d) = Ok tt /\ exists r, boolean_ber_content h d = Ok (r, v)) <-> Q (h_constructed h) d v)).
  { intros h d v Hd Hl. rewrite boolean_ber_content_ok by assumption. unfold boolean_check, Q. cbn [any_data]. split.
    - intros (E & K & ->). repeat split; [exact K|].
      destruct ((v =? 0) || (v =? 0xff)) eqn:V; [lia|discriminate].
    - intros (K & -> & V). repeat split; [|exact K]. destruct V as [-> | ->]; reflexivity. }
  assert (T : forall (k : bool) d b, (exists a, Q k d a /\ b = to_bool a) <-> P k d b).
  { intros k d b'. unfold P, Q. split.
    - intros (a & (-> & -> & V) & ->). split; [reflexivity|]. destruct V as [-> | ->]; reflexivity.
    - intros (-> & ->). exists (if b' then 0xff else 0). destruct b'; repeat split; auto. }
  split; [|split; [|split]].
  - rewrite (from_der_spec bool_codec 1 P); [exact P1|intros a; reflexivity|reflexivity| |exact Hi].
    intros h d v Hd Hl. cbn [check_constraints ber_content bool_codec]. rewrite <- T. split.
    + intros [E [r F]]. apply map_snd_ok in F as (a & F & ->). exists a. split; [|reflexivity].
      apply C; try assumption. eauto.
    + intros (a & QQ & ->). apply C in QQ as [E [r F]]; try assumption. split; [exact E|].
      exists r. apply map_snd_ok. eauto.
  - rewrite (parse_der_spec bool_codec 1 P); [exact P1|reflexivity| |exact Hi].
    intros h d v Hd Hl. cbn [der_content bool_codec]. rewrite <- T. split.
    + intros [r F]. apply map_snd_ok in F as (a & F & ->). exists a. split; [|reflexivity].
      apply D; try assumption. eauto.
    + intros (a & QQ & ->). apply D in QQ as [r F]; try assumption. exists r. apply map_snd_ok. eauto.
  - rewrite (from_der_spec boolean_codec 1 Q); [exact Q1|intros a; reflexivity|reflexivity|exact C|exact Hi].
  - rewrite (parse_der_spec boolean_codec 1 Q); [exact Q1|reflexivity|exact D|exact Hi].
Qed.
Print Assumptions C18_boolean_der.

Lemma boolean_reads o : 
  ber_reads boolean_codec Universal false 1 [o] o
  /\ (o = 0 \/ o = 0xff -> der_reads boolean_codec Universal false 1 [o] o).
Proof.
  split; [|intros V]; (split; [reflexivity|]); intros rt rh h; cbn.
  - split; [eexists; reflexivity|reflexivity].
  - destruct V as [-> | ->]; repeat split; eexists; reflexivity.
Qed.

Lemma bool_reads (b : bool) :
  ber_reads bool_codec Universal false 1 [if b then 0xff else 0] b
  /\ der_reads bool_codec Universal false 1 [if b then 0xff else 0] b.
Proof.
  split; (split; [reflexivity|]); intros rt rh h; destruct b; cbn; repeat split; eexists; reflexivity.
Qed.

Theorem C18_boolean_roundtrip :
  (forall b : bool, exists enc, to_vec (tober_bool b) = Ok enc /\ reads_ber bool_codec enc b /\ reads_der bool_codec enc b)
  /\ (forall o, o < 256 ->
        (exists enc, to_vec (tober_boolean o) = Ok enc /\ reads_ber boolean_codec enc o)
        /\ (exists enc, to_vec (toder_boolean o) = Ok enc
            /\ reads_der boolean_codec enc (if octet_bool o then 0xff else 0)))
  /\ (exists enc, to_vec tober_null = Ok enc /\ reads_ber null_codec enc tt /\ reads_der null_codec enc tt).
Proof.
  split; [|split].
  - intros b. destruct (bool_reads b) as [RB RD].
    assert (W : writes (tober_bool b) Universal false 1 [if b then 0xff else 0]) by (repeat split).
    assert (Hd : bytes_ok [if b then 0xff else 0]) by (destruct b; repeat constructor).
    destruct (roundtrip_ber _ _ _ _ _ _ _ W RB eq_refl eq_refl Hd) as (enc & E & _ & R).
    destruct (roundtrip_der _ _ _ _ _ _ _ W RD eq_refl eq_refl Hd) as (enc' & E' & _ & R').
    exists enc. rewrite E in E'. injection E' as <-. auto.
  - intros o Ho. split.
    + assert (Hd : bytes_ok [o]) by (repeat constructor; exact Ho).
      destruct (roundtrip_ber boolean_codec (tober_boolean o) Universal false 1 [o] o) as (enc & E & _ & R);
        try exact Hd; try reflexivity; [repeat split|apply boolean_reads|]. eauto.
    + set (o' := if octet_bool o then 0xff else 0).
      assert (Eo : (if o =? 0 then 0 else 0xff) = o') by (unfold o', octet_bool; destruct (o =? 0); reflexivity).
      assert (Hd : bytes_ok [o']) by (unfold o'; destruct (octet_bool o); repeat constructor).
      destruct (roundtrip_der boolean_codec (toder_boolean o) Universal false 1 [o'] o') as (enc & E & _ & R);
        try exact Hd; try reflexivity; [|apply boolean_reads; unfold o'; destruct (octet_bool o); auto|eauto].
      unfold toder_boolean. rewrite Eo. repeat split.
  - assert (W : writes tober_null Universal false 5 []) by (repeat split).
    assert (RB : ber_reads null_codec Universal false 5 [] tt).
    { split; [reflexivity|]. intros rt rh h. cbn. split; [eexists; reflexivity|reflexivity]. }
    assert (RD : der_reads null_codec Universal false 5 [] tt).
    { split; [reflexivity|]. intros rt rh h. cbn. repeat split; eexists; reflexivity. }
    destruct (roundtrip_ber _ _ _ _ _ _ _ W RB eq_refl eq_refl ltac:(constructor)) as (enc & E & _ & R).
    destruct (roundtrip_der _ _ _ _ _ _ _ W RD eq_refl eq_refl ltac:(constructor)) as (enc' & E' & _ & R').
    exists enc. rewrite E in E'. injection E' as <-. auto.
Qed.
Print Assumptions C18_boolean_roundtrip.

Theorem C18_null (i rem : bytes) :
  bytes_ok i ->
  let accepted := exists c, starts_with_object c false 5 [] i rem in
  (from_ber null_codec i = Ok (rem, tt) <-> accepted) /\ (parse_ber null_codec i = Ok (rem, tt) <-> accepted)
  /\ (from_der null_codec i = Ok (rem, tt) <-> accepted) /\ (parse_der null_codec i = Ok (rem, tt) <-> accepted).
Proof.
  intros Hi. cbv zeta.
  rewrite from_ber_parse_ber by (try exact Hi; intros a; reflexivity).
  assert (N : forall h d, bytes_ok d -> h_length h = Definite (blen d) ->
     ((exists r, null_ber_content h d = Ok (r, tt)) <-> h_constructed h = false /\ d = [])).
  { intros h d Hd Hl. unfold null_ber_content, assert_primitive.
    destruct (h_constructed h); [split; [intros [r E]; discriminate|intros [E _]; discriminate]|]. cbn [bind].
    rewrite Hl. destruct d as [|x d].
    - cbn. split; [auto|]. intros _. exists []. reflexivity.
    - cbn [is_null]. destruct (N.eqb_spec (blen (x :: d)) 0) as [E|E]; [unfold blen in E; cbn in E; lia|].
      split; [intros [r E']; discriminate|intros [_ E']; discriminate]. }
  assert (B : parse_ber null_codec i = Ok (rem, tt) <-> exists c, starts_with_object c false 5 [] i rem).
  { rewrite (parse_ber_prim_spec null_codec 5 (fun d v => d = [])); try exact Hi; try reflexivity.
    - split; [intros (c & d & S & ->); eauto|intros (c & S); eauto].
    - intros h d [] Hd Hl. apply N; assumption.
    - intros h d r [] E. cbn in E. unfold null_ber_content, assert_primitive in E.
      destruct (h_constructed h); [discriminate|reflexivity]. }
  assert (G : (exists c k content, starts_with_object c k 5 content i rem /\ (k = false /\ content = []))
              <-> exists c, starts_with_object c false 5 [] i rem).
  { split; [intros (c & k & d & S & -> & ->); eauto|]. intros [c S]. exists c, false, []. auto. }
  split; [exact B|]. split; [exact B|]. split.
  - rewrite (from_der_spec null_codec 5 (fun k d v => k = false /\ d = [])); [exact G|intros a; reflexivity|reflexivity| |exact Hi].
    intros h d [] Hd Hl. cbn [check_constraints ber_content null_codec]. rewrite <- (N h d Hd Hl). tauto.
  - rewrite (parse_der_spec null_codec 5 (fun k d v => k = false /\ d = [])); [exact G|reflexivity| |exact Hi].
    intros h d [] Hd Hl. apply N; assumption.
Qed.
Print Assumptions C18_null.

Example C18_case :
  from_ber bool_codec [1; 1; 0x80] = Ok ([], true) /\ from_der bool_codec [1; 1; 0xff; 3] = Ok ([3], true)
  /\ from_der bool_codec [1; 1; 0x01] = Err (EDerConstraintFailed DCInvalidBoolean)
  /\ starts_with_object Universal false 1 [0xff] [1; 1; 0xff; 3] [3].
Proof.
  split; [vm_compute; reflexivity|]. split; [vm_compute; reflexivity|]. split; [vm_compute; reflexivity|].
  exists 1, [1], [1]. split; [|split; reflexivity].
  split; [split; [apply (id_low Universal false 1); reflexivity|split; [apply (lo_short 1); reflexivity|discriminate]]|].
  split; [vm_compute; discriminate|intros n E; injection E as <-; reflexivity].
Qed.

(** The DER check indexes the first content byte without checking there is one. *)
Theorem C07_boolean_panic_refuted :
  exists i, from_der bool_codec i = Panic /\ from_der boolean_codec i = Panic
            /\ parse_der bool_codec i = Err EInvalidLength.
Proof. exists [1; 0]. vm_compute. repeat split. Qed.
Print Assumptions C07_boolean_panic_refuted.

(** ** C21: ENUMERATED *)

Theorem C21_enumerated_roundtrip (v : Z) :
  in_unsigned 4 v ->
  exists enc, to_vec (tober_enum v) = Ok enc /\ reads_der enum_codec enc v /\ reads_ber enum_codec enc v.
Proof.
  intros Hv.
  destruct (integer_from_uint_ok 4 v ltac:(lia) Hv) as (d & E & Hs & <- & Hd & Hl).
  pose proof (width_len 4 d ltac:(lia) Hl) as Hn.
  assert (B : forall h, h_constructed h = false -> uint_ber_content 4 h d = Ok ([], twos d)).
  { intros h Hh. apply uint_ber_content_ok; [lia|exact Hd|]. auto. }
  assert (D : forall h, h_constructed h = false -> uint_der_content 4 h d = Ok ([], twos d)).
  { intros h Hh. apply uint_der_content_ok; [lia|exact Hd|]. auto 6. }
  assert (F : forall rt rh, try_from_any enum_codec
     (mk_any (mk_header Universal false 10 (Definite (blen d)) rt rh) d) = Ok (twos d)).
  { intros rt rh. apply default_try_from_ok. split; [reflexivity|]. exists []. apply B. reflexivity. }
  assert (RB : ber_reads enum_codec Universal false 10 d (twos d)).
  { split; [reflexivity|]. intros rt rh h. split; [exists []; apply B; reflexivity|apply F]. }
  assert (RD : der_reads enum_codec Universal false 10 d (twos d)).
  { split; [reflexivity|]. intros rt rh h. split; [exists []; apply D; reflexivity|]. split; [apply F|reflexivity]. }
  pose proof (writes_integer 10 d _ E) as W.
  destruct (roundtrip_der _ _ _ _ _ _ _ W RD eq_refl Hn Hd) as (enc & E1 & _ & R1).
  destruct (roundtrip_ber _ _ _ _ _ _ _ W RB eq_refl Hn Hd) as (enc' & E2 & _ & R2).
  exists enc. split; [exact E1|]. split; [exact R1|].
  assert (Ok enc = Ok enc') as EE by (rewrite <- E1; exact E2). injection EE as ->. exact R2.
Qed.
Print Assumptions C21_enumerated_roundtrip.

Example C21_case :
  to_vec (tober_enum 0xffffffff) = Ok [10; 5; 0; 0xff; 0xff; 0xff; 0xff]
  /\ from_der enum_codec [10; 5; 0; 0xff; 0xff; 0xff; 0xff; 1] = Ok ([1], 0xffffffff%Z).
Proof. vm_compute. split; reflexivity. Qed.

(** ** C43: the [int!] macro *)

Lemma skip_while0_ok b :
  bytes_ok b -> val (skip_while0 b) = val b /\ bytes_ok (skip_while0 b)
  /\ match skip_while0 b with [] => val b = 0%Z | x :: _ => x <> 0 end.
Proof.
  induction b as [|x b IH]; intros H; [repeat split; [constructor]|].
  cbn [skip_while0]. destruct (N.eqb_spec x 0) as [->|Hx].
  - apply bytes_ok_cons in H as [_ H]. destruct (IH H) as (I1 & I2 & I3). rewrite val_cons.
    split; [rewrite I1; lia|]. split; [exact I2|]. destruct (skip_while0 b); [lia|exact I3].
  - repeat split; assumption.
Qed.

(** The literal is written without leading zero bytes: its two's complement value is the literal
    exactly when it is 0 (an empty content, which no parser accepts as [Integer]) or its leading byte
    is below 0x80; then the content is the shortest. *)
Theorem C43_int_macro_partial (n : N) :
  n < 2 ^ 64 ->
  (twos (int_macro n) = Z.of_N n <-> match int_macro n with [] => True | b :: _ => b < 128 end)
  /\ (0 < n -> twos (int_macro n) = Z.of_N n -> shortest (int_macro n))
  /\ (int_macro n = [] <-> n = 0).
Proof.
  intros Hn. unfold int_macro.
  pose proof (be_bytes_ok 8 n) as Hok.
  assert (V : val (be_bytes 8 n) = Z.of_N n) by (apply be_bytes_val; change (pw 8) with 18446744073709551616%Z; change (2^64) with 18446744073709551616 in Hn; lia).
  destruct (skip_while0_ok _ Hok) as (I1 & I2 & I3). rewrite V in *.
  destruct (skip_while0 (be_bytes 8 n)) as [|b r].
  - rewrite I3. cbn. split; [tauto|]. split; [lia|]. split; [lia|reflexivity].
  - assert (T : twos (b :: r) = Z.of_N n <-> b < 128).
    { destruct (N.lt_ge_cases b 128) as [L|L].
      - rewrite twos_val_pos by exact L. tauto.
      - rewrite twos_val_neg by exact L. pose proof (pw_pos (S (length r))). split; lia. }
    split; [exact T|]. split.
    + intros _ E. apply T in E. apply shortest_iff; [exact I2|]. destruct r as [|b1 r]; [exact I|]. split; lia.
    + split; [discriminate|]. intros ->. rewrite val_cons in I1. apply bytes_ok_cons in I2 as [_ I2].
      pose proof (val_bound r I2). pose proof (pw_pos (length r)). nia.
Qed.
Print Assumptions C43_int_macro_partial.

Example C43_case : int_macro 1234 = [4; 0xd2] /\ twos [4; 0xd2] = 1234%Z.
Proof. vm_compute. split; reflexivity. Qed.

(** [int!(128)] is -128 and [int!(0)] has no content. *)
Theorem C43_int_macro_refuted :
  exists n, n < 2 ^ 64 /\ twos (int_macro n) <> Z.of_N n /\ integer_as (int_codec 4) (int_macro n) = Ok (-128)%Z
            /\ int_macro 0 = [] /\ from_ber integer_codec [2; 0] = Err EInvalidLength.
Proof. exists 128. vm_compute. repeat split. discriminate. Qed.
Print Assumptions C43_int_macro_refuted.

(** ** C44: every content whose value fits is accepted *)

Theorem C44_ber_integer_complete_partial (w : nat) (c : class) (content i rem : bytes) :
  (1 <= w)%nat -> bytes_ok i -> starts_with_object c false 2 content i rem ->
  (in_unsigned w (twos content) -> from_ber (uint_codec w) i = Ok (rem, twos content))
  /\ (in_signed w (twos content) -> (0 <= twos content)%Z \/ (length content <= w)%nat ->
      from_ber (int_codec w) i = Ok (rem, twos content)).
Proof.
  intros Hw Hi S. destruct (C16_ber_integer w i rem (twos content) Hw Hi) as (_ & A & _ & B). split.
  - intros R. apply B. exists c, content. auto.
  - intros R K. apply A. exists c, content. split; [exact S|]. split; [reflexivity|]. split; [exact R|]. lia.
Qed.
Print Assumptions C44_ber_integer_complete_partial.

Example C44_case : from_ber (int_codec 2) [2; 5; 0; 0; 0; 0x7f; 0xff] = Ok ([], 32767%Z).
Proof. vm_compute. reflexivity. Qed.

(** Sign octets padding a negative number are not trimmed, unlike those of a positive one. *)
Theorem C44_padded_negative_refuted :
  exists i content, starts_with_object Universal false 2 content i [] /\ in_signed 1 (twos content)
    /\ from_ber (int_codec 1) i = Err EIntegerTooLarge.
Proof.
  exists [2; 2; 0xff; 0xfe], [0xff; 0xfe]. split; [|vm_compute; repeat split; discriminate].
  exists 2, [2], [2]. split; [|split; reflexivity].
  split; [split; [apply (id_low Universal false 2); reflexivity|split; [apply (lo_short 2); reflexivity|discriminate]]|].
  split; [vm_compute; discriminate|intros n E; injection E as <-; reflexivity].
Qed.
Print Assumptions C44_padded_negative_refuted.
