(** Properties of structured types: round trips, announced lengths, tagging, OPTIONAL, SET OF. *)
From Verif Require Import Base MHeader MEncode SHeader PArith PHeader PEncode MBer SBer PBer PIter PCodec.
From Verif Require Import MInt SInt PInt MSeg SSeg MOid MText SText PropText.
From Verif Require Import MCont SCont PCont SBase PBase PTypes.

(** ** C26: type expressions round trip *)

(** Every entry point of the type reads [enc], whatever follows it. *)
Definition reads_everywhere {A} (t : ty A) (enc : bytes) (v : A) : Prop :=
  forall x, bytes_ok x ->
    ps_parse_ber (parser_of t) (enc ++ x) = Ok (x, v) /\ ps_parse_der (parser_of t) (enc ++ x) = Ok (x, v)
    /\ (has_legacy t -> lg_from_ber (legacy_of t) (enc ++ x) = Ok (x, v)
                        /\ lg_from_der (legacy_of t) (enc ++ x) = Ok (x, v)).

Theorem C26_encoding_roundtrip {A} (t : ty A) (v : A) (enc : bytes) :
  wf t -> encodes (syntax_of t) v enc -> blen enc < 2 ^ 24 ->
  to_vec (wr_ber (writer_of t) v) = Ok enc /\ to_vec (wr_der (writer_of t) v) = Ok enc /\ reads_everywhere t enc v.
Proof.
  intros Hwf E Hn. destruct (types_sound t Hwf) as (S & P & W & L & _).
  destruct (writer_encodes _ _ v enc W S E Hn) as [[W1 _] [W2 _]]. unfold to_vec.
  rewrite W1, W2. split; [reflexivity|]. split; [reflexivity|]. intros x Hx.
  destruct (parser_reads _ _ v enc x P S E Hn Hx) as [P1 P2]. split; [exact P1|]. split; [exact P2|].
  intros HL. apply (legacy_reads _ _ v enc x (L HL) S E Hn Hx).
Qed.
Print Assumptions C26_encoding_roundtrip.

(** Every value has an encoding, unless it is announced to be too long. *)
Theorem C26_container_roundtrip {A} (t : ty A) (v : A) (n : N) :
  wf t -> sx_valid (syntax_of t) v -> total_len (wr_der (writer_of t) v) = Definite n -> n < 2 ^ 24 ->
  exists enc, encodes (syntax_of t) v enc /\ blen enc = n
    /\ to_vec (wr_ber (writer_of t) v) = Ok enc /\ to_vec (wr_der (writer_of t) v) = Ok enc
    /\ reads_everywhere t enc v.
Proof.
  intros Hwf Hv L Hn. destruct (types_sound t Hwf) as (S & _ & W & _).
  destruct (writer_total _ _ v n W S Hv L Hn) as (enc & E & En). exists enc. split; [exact E|]. split; [exact En|].
  apply C26_encoding_roundtrip; [exact Hwf|exact E|lia].
Qed.
Print Assumptions C26_container_roundtrip.

(** Tuples are read only.  [(T1, ..., Tn)] reads the SEQUENCE of the encodings of its components. *)
Inductive tys : Type -> Type :=
| tnil : tys unit
| tcons A B (t : ty A) (ts : tys B) : tys (A * B).
Arguments tcons {A B}.
Fixpoint tys_wf {A} (ts : tys A) : Prop :=
  match ts with tnil => True | tcons t ts => wf t /\ tys_wf ts end.
Fixpoint ber_fields {A} (ts : tys A) : fields A :=
  match ts with tnil => no_field | tcons t ts => field (ps_parse_ber (parser_of t)) (ber_fields ts) end.
Fixpoint der_fields {A} (ts : tys A) : fields A :=
  match ts with tnil => no_field | tcons t ts => field (ps_parse_der (parser_of t)) (der_fields ts) end.
Fixpoint components {A} (ts : tys A) : A -> bytes -> Prop :=
  match ts with tnil => no_component | tcons t ts => component (syntax_of t) (components ts) end.

Lemma tys_sound {A} (ts : tys A) : tys_wf ts -> fields_sound (ber_fields ts) (der_fields ts) (components ts).
Proof.
  induction ts as [|A B t ts IH]; cbn [tys_wf ber_fields der_fields components]; [intros _; apply no_field_sound|].
  intros [H1 H2]. destruct (types_sound t H1) as (S & P & _). apply field_sound; [exact P|exact S|apply IH; exact H2].
Qed.

Theorem C26_tuple {A} (ts : tys A) (v : A) (enc x : bytes) :
  tys_wf ts -> encodes (sequence_syntax (components ts)) v enc -> blen enc < 2 ^ 24 -> bytes_ok x ->
  let p := tuple_parser (ber_fields ts) (der_fields ts) in
  ps_parse_ber p (enc ++ x) = Ok (x, v) /\ ps_parse_der p (enc ++ x) = Ok (x, v).
Proof.
  intros Hwf E Hn Hx p. pose proof (tys_sound ts Hwf) as F.
  assert (S : syntax_ok (sequence_syntax (components ts))).
  { intros w cb c k t Ei C. injection Ei as <- <- <-. split; [reflexivity|].
    clear - C Hwf. cbn [sequence_syntax sx_content] in C. revert cb C.
    induction ts as [|A B t ts IH]; cbn [components]; intros cb C.
    - unfold no_component in C. subst. constructor.
    - destruct w as [a b], C as (e & r & E & Cr & ->). destruct Hwf as [H1 H2]. destruct (types_sound t H1) as (S & _).
      apply bytes_ok_app. split; [exact (encodes_ok _ _ _ S E)|exact (IH H2 b r Cr)]. }
  exact (parser_reads _ _ v enc x (tuple_parser_sound _ _ _ F) S E Hn Hx).
Qed.
Print Assumptions C26_tuple.

(** A SEQUENCE OF [1] EXPLICIT [2] IMPLICIT OCTET STRING. *)
Definition sample_ty : ty (list bytes) :=
  TVec (TExplicit ContextSpecific 1 (TImplicit ContextSpecific 2 (TBase BOctets))).
Example C26_case :
  wf sample_ty /\ sx_valid (syntax_of sample_ty) [[7; 8]; []]
  /\ total_len (wr_der (writer_of sample_ty) [[7; 8]; []]) = Definite 12
  /\ to_vec (wr_der (writer_of sample_ty) [[7; 8]; []]) = Ok [0x30; 10; 0xa1; 4; 0x82; 2; 7; 8; 0xa1; 2; 0x82; 0]
  /\ ps_parse_ber (parser_of sample_ty) [0x30; 10; 0xa1; 4; 0x82; 2; 7; 8; 0xa1; 2; 0x82; 0; 5] = Ok ([5], [[7; 8]; []])
  /\ lg_from_der (legacy_of sample_ty) [0x30; 10; 0xa1; 4; 0x82; 2; 7; 8; 0xa1; 2; 0x82; 0; 5] = Ok ([5], [[7; 8]; []]).
Proof.
  split; [cbn; repeat split; reflexivity|]. split; [repeat constructor|]. repeat split; vm_compute; reflexivity.
Qed.

Example C26_tuple_case :
  let ts := tcons (TBase (BUint 1)) (tcons (TBase BBool) tnil) in
  tys_wf ts /\ ps_parse_der (tuple_parser (ber_fields ts) (der_fields ts)) [0x30; 6; 2; 1; 9; 1; 1; 0xff; 3]
               = Ok ([3], (9%Z, (true, tt))).
Proof. split; [cbn; lia|]. vm_compute. reflexivity. Qed.

(** What is missing in C26.  [SetOf] under an implicit tag: the form bit is lost, and the encoding is not
    read back. *)
Theorem C26_implicit_setof_refuted :
  exists enc, let t := TImplicit ContextSpecific 0 (TSetOf (TBase (BUint 1))) in
    to_vec (wr_der (writer_of t) [1%Z]) = Ok enc
    /\ lg_from_der (legacy_of t) enc = Err EConstructExpected /\ ps_parse_ber (parser_of t) enc = Err EConstructExpected
    /\ enc = [0x80; 3; 2; 1; 1].
Proof. eexists. cbv zeta. split; [vm_compute; reflexivity|]. split; [vm_compute; reflexivity|]. split; [vm_compute; reflexivity|reflexivity]. Qed.
Print Assumptions C26_implicit_setof_refuted.

(** IMPLICIT over EXPLICIT is written and not read by [parse_ber]. *)
Theorem C26_implicit_explicit_refuted :
  exists enc, let t := TImplicit ContextSpecific 0 (TExplicit ContextSpecific 1 (TBase (BUint 1))) in
    to_vec (wr_der (writer_of t) 1%Z) = Ok enc
    /\ ps_parse_ber (parser_of t) enc = Err EUnexpectedTag /\ ps_parse_der (parser_of t) enc = Err EUnexpectedTag
    /\ lg_from_der (legacy_of t) enc = Ok ([], 1%Z).
Proof. eexists. cbv zeta. split; [vm_compute; reflexivity|]. repeat split; vm_compute; reflexivity. Qed.
Print Assumptions C26_implicit_explicit_refuted.

(** ** C27: announced lengths *)

Theorem C27_length_prediction {A} (t : ty A) (v : A) (enc : bytes) :
  wf t -> encodes (syntax_of t) v enc -> blen enc < 2 ^ 24 ->
  exists cb, sx_content (syntax_of t) v cb /\
  forall w, w = wr_ber (writer_of t) v \/ w = wr_der (writer_of t) v ->
    tb_write_content w = Ok (cb, blen cb) /\ tb_content_len w = Definite (blen cb)
    /\ encode w = Ok (enc, blen enc) /\ total_len w = Definite (blen enc).
Proof.
  intros Hwf E Hn. destruct (types_sound t Hwf) as (S & _ & W & _).
  destruct (writer_encodes _ _ v enc W S E Hn) as [[W1 W2] [W3 W4]].
  destruct (encodes_object _ v enc S E) as (c & k & n & cb & E1 & E2 & Ht & Hcb & O); [lia|].
  pose proof (object_size _ _ _ _ _ O) as Hsz. destruct W as [W _].
  destruct (W _ _ _ _ _ E1 E2) as ((_ & A2 & A3) & (_ & B2 & B3) & _); [lia|].
  exists cb. split; [exact E2|]. intros w [-> | ->]; auto.
Qed.
Print Assumptions C27_length_prediction.

Example C27_case :
  let w := wr_der (writer_of sample_ty) [[7; 8]; []] in
  tb_content_len w = Definite 10 /\ total_len w = Definite 12
  /\ tb_write_content w = Ok ([0xa1; 4; 0x82; 2; 7; 8; 0xa1; 2; 0x82; 0], 10).
Proof. repeat split; vm_compute; reflexivity. Qed.

(** The same for every type expression, including those the parsers cannot read back (nested tags, [SetOf]
    under an implicit tag), and without the specification of the encoding: whatever the writer writes below
    16 MiB has the length announced and the count returned. *)
Fixpoint lengths_wf {A} (t : ty A) : Prop :=
  match t with
  | TBase b => base_wf b
  | TVec t => lengths_wf t
  | TArray _ t => lengths_wf t
  | TSetOf t => lengths_wf t
  | TBTreeSet _ t => lengths_wf t
  | TExplicit _ n t => n < 2 ^ 32 /\ lengths_wf t
  | TImplicit _ n t => n < 2 ^ 32 /\ lengths_wf t
  end.

Definition counted (w : tober) : Prop :=
  (exists c k, written_ident (tb_encoder w) (tb_class w) (tb_constructed w) (tb_tag w) = (c, k, tb_tag w))
  /\ tb_tag w < 2 ^ 32
  /\ forall cb n, tb_write_content w = Ok (cb, n) -> blen cb < 2 ^ 24 -> n = blen cb /\ tb_content_len w = Definite (blen cb).

Lemma counted_encode w enc n :
  counted w -> encode w = Ok (enc, n) -> blen enc < 2 ^ 24 ->
  n = blen enc /\ total_len w = Definite (blen enc)
  /\ exists cb, tb_write_content w = Ok (cb, blen cb) /\ tb_content_len w = Definite (blen cb).
Proof.
  intros ((c & k & W) & Ht & C) E Hn. pose proof E as E'. unfold encode in E'.
  apply bind_ok in E' as ([hb hn] & _ & E'). apply bind_ok in E' as ([cb m] & E2 & E'). injection E' as <- _.
  rewrite blen_app in Hn. destruct (C _ _ E2) as [-> L]; [lia|].
  assert (WW : writes w c k (tb_tag w) cb) by (split; [exact W|split; assumption]).
  destruct (encode_writes _ _ _ _ _ WW Ht) as (idb & lenb & EE & _ & S1 & S2 & HR); [lia|].
  rewrite EE in E. injection E as E3 <-. rewrite <- E3.
  split; [reflexivity|]. split; [|exists cb; split; assumption].
  apply (writes_total_len w c k (tb_tag w) cb); [exact WW|reflexivity| |exact Ht|lia].
  exists idb, lenb. auto.
Qed.

Lemma counted_items ws bs n :
  Forall counted ws -> write_items ws = Ok (bs, n) -> blen bs < 2 ^ 24 ->
  n = blen bs /\ length_constructed_items ws = Definite (blen bs).
Proof.
  unfold length_constructed_items. intros F. revert bs n. induction F as [|w ws Hw F IH]; intros bs n E Hn.
  - injection E as <- <-. split; reflexivity.
  - cbn [write_items] in E. apply bind_ok in E as ([e m] & E1 & E). apply bind_ok in E as ([r m'] & E2 & E).
    injection E as <- <-. rewrite blen_app in *.
    destruct (counted_encode _ _ _ Hw E1) as (-> & L1 & _); [lia|]. destruct (IH _ _ E2) as [-> L2]; [lia|].
    split; [reflexivity|]. cbn [map]. rewrite length_sum_cons, L1, L2. reflexivity.
Qed.

Lemma types_counted {A} (t : ty A) :
  lengths_wf t -> forall v, sx_valid (syntax_of t) v ->
  (counted (wr_ber (writer_of t) v) /\ counted (wr_der (writer_of t) v))
  /\ tb_tag (wr_ber (writer_of t) v) = wr_tag (writer_of t) v /\ tb_tag (wr_der (writer_of t) v) = wr_tag (writer_of t) v.
Proof.
  assert (I : forall tag ws, tag < 2 ^ 32 -> Forall counted ws -> counted (items_tober tag ws)).
  { intros tag ws Ht F. split; [exists Universal, true; reflexivity|]. split; [exact Ht|]. intros cb n. apply counted_items. exact F. }
  assert (IL : forall B (w : B -> tober) (Q : B -> Prop) vs, (forall v, Q v -> counted (w v)) -> Forall Q vs ->
                 Forall counted (map w vs)).
  { intros B w Q vs H F. induction F; cbn [map]; constructor; auto. }
  induction t as [A b|A t IH|A n t IH|A t IH|A cmp t IH|A c n t IH|A c n t IH];
    cbn [lengths_wf syntax_of writer_of]; intros Hwf v V.
  - pose proof (base_types_sound b Hwf) as B. cbn [same_writer wr_ber wr_der wr_tag].
    pose proof (bs_tagged _ _ _ _ _ B v V) as Et.
    assert (C : counted (base_tober b v)).
    { destruct (bs_total _ _ _ _ _ B v V) as (cb & Cb & L). pose proof (bs_writes _ _ _ _ _ B v cb Cb) as (W1 & W2 & W3).
      split; [exists Universal, (base_form b); rewrite Et in W1 |- *; exact W1|]. split; [rewrite Et; apply B|].
      intros cb' n E _. rewrite W3 in E. injection E as <- <-. split; [reflexivity|exact W2]. }
    auto.
  - specialize (IH Hwf). cbn [sx_valid list_syntax] in V. cbn [vec_writer wr_ber wr_der wr_tag items_tober tb_tag]. split; [|auto].
    split; apply I; try reflexivity; eapply IL; try exact V; intros x Hx; apply IH; exact Hx.
  - specialize (IH Hwf). cbn [sx_valid array_syntax] in V. destruct V as [V _].
    cbn [array_writer vec_writer wr_ber wr_der wr_tag items_tober tb_tag]. split; [|auto].
    split; apply I; try reflexivity; eapply IL; try exact V; intros x Hx; apply IH; exact Hx.
  - specialize (IH Hwf). cbn [sx_valid list_syntax] in V. cbn [setof_writer wr_ber wr_der wr_tag items_tober tb_tag]. split; [|auto].
    split; apply I; try reflexivity; eapply IL; try exact V; intros x Hx; apply IH; exact Hx.
  - specialize (IH Hwf). cbn [sx_valid set_syntax] in V. destruct V as [V _].
    cbn [btreeset_writer wr_ber wr_der wr_tag items_tober tb_tag]. split; [|auto].
    split; apply I; try reflexivity; eapply IL; try exact V; intros x Hx; apply IH; exact Hx.
  - destruct Hwf as [Hn Hwf]. destruct (IH Hwf v V) as ((C1 & C2) & T1 & T2).
    cbn [explicit_writer wr_ber wr_der wr_tag explicit_tober tb_tag]. split; [|auto].
    assert (X : forall w, counted w -> tb_tag w = wr_tag (writer_of t) v -> counted (explicit_tober c n (wr_tag (writer_of t) v) w)).
    { intros w Cw Tw. split; [exists c, true; reflexivity|]. split; [exact Hn|].
      cbn [explicit_tober tb_write_content tb_content_len]. intros cb m E Hm.
      destruct (counted_encode _ _ _ Cw E Hm) as (-> & L & _). split; [reflexivity|]. rewrite <- Tw, <- L.
      unfold total_len, ber_total_length. destruct (tb_content_len w); cbn [length_add]; [f_equal; lia|reflexivity]. }
    split; apply X; assumption.
  - destruct Hwf as [Hn Hwf]. destruct (IH Hwf v V) as ((C1 & C2) & _).
    cbn [implicit_writer wr_ber wr_der wr_tag implicit_tober tb_tag]. split; [|auto].
    split; (split; [eexists _, _; reflexivity|]); (split; [exact Hn|]); [apply C1|apply C2].
Qed.

Theorem C27_all_types {A} (t : ty A) (v : A) (enc : bytes) (n : N) w :
  lengths_wf t -> sx_valid (syntax_of t) v -> w = wr_ber (writer_of t) v \/ w = wr_der (writer_of t) v ->
  encode w = Ok (enc, n) -> blen enc < 2 ^ 24 ->
  n = blen enc /\ total_len w = Definite (blen enc)
  /\ exists cb, tb_write_content w = Ok (cb, blen cb) /\ tb_content_len w = Definite (blen cb).
Proof.
  intros Hwf V Hw E Hn. destruct (types_counted t Hwf v V) as ((C1 & C2) & _).
  destruct Hw as [-> | ->]; eapply counted_encode; eassumption.
Qed.
Print Assumptions C27_all_types.

Example C27_all_case :
  let t := TImplicit ContextSpecific 40 (TExplicit Private 1 (TSetOf (TBase (BUint 1)))) in
  let w := wr_der (writer_of t) [1; 200]%Z in
  encode w = Ok ([0xbf; 40; 9; 0x31; 7; 2; 1; 1; 2; 2; 0; 200], 12) /\ total_len w = Definite 12.
Proof. split; vm_compute; reflexivity. Qed.

Lemma zeros_exist n : exists d : bytes, bytes_ok d /\ blen d = n.
Proof.
  exists (repeat 0 (N.to_nat n)). split.
  - apply Forall_forall. intros x Hx. apply repeat_spec in Hx. subst. reflexivity.
  - unfold blen. rewrite repeat_length. lia.
Qed.

(** From 16 MiB on, the announced content length is wrong: here of a vector holding one octet string. *)
Theorem C27_large_refuted :
  exists d : bytes, bytes_ok d /\ blen d = 2 ^ 24 /\
  exists n cb m, let w := wr_der (writer_of (TVec (TBase BSlice))) [d] in
    tb_content_len w = Definite n /\ tb_write_content w = Ok (cb, m) /\ blen cb = m /\ n <> m.
Proof.
  destruct (zeros_exist (2 ^ 24)) as (d & Hok & Hd). exists d. split; [exact Hok|]. split; [exact Hd|].
  assert (W : writes (tober_octet d) Universal false 4 d) by (split; [reflexivity|split; reflexivity]).
  destruct (encode_writes _ _ _ _ _ W) as (idb & lenb & E & _ & S1 & S2 & _); [lia|lia|].
  pose proof (ber_header_length_exact _ _ 4 (blen d) idb lenb ltac:(lia) ltac:(lia) S1 S2) as X.
  exists (unwrap_or0 (ber_header_length 4 (Definite (blen d))) + blen d), (idb ++ lenb ++ d), (blen (idb ++ lenb ++ d)).
  cbv zeta. cbn [wr_der writer_of vec_writer items_tober tb_content_len tb_write_content map base_tober same_writer].
  change (wr_der (writer_of (TBase BSlice)) d) with (tober_octet d).
  split; [|split; [|split; [reflexivity|]]].
  - unfold length_constructed_items. cbn [map]. rewrite length_sum_cons. unfold total_len, ber_total_length.
    cbn [tober_octet tb_content_len tb_tag length_add map]. unfold length_sum. cbn [fold_left length_add]. f_equal.
    unfold TagOctetString. lia.
  - cbn [write_items]. rewrite E. cbn [wseq bind]. rewrite app_nil_r. f_equal. f_equal. lia.
  - intros F. rewrite !app_assoc, blen_app in F. assert (Y : unwrap_or0 (ber_header_length 4 (Definite (blen d))) = blen (idb ++ lenb)) by lia.
    apply X in Y. lia.
Qed.
Print Assumptions C27_large_refuted.

(** [Option<T>] announces a length for [None], of which nothing is written; asking for the length (or tag)
    of [Some] does not return. *)
Theorem C27_option_refuted :
  option_total_len None = Ok (Definite 2) /\ option_encode None = Ok ([], 0)
  /\ exists w, option_encode (Some w) = Ok ([1; 1; 0xff], 3) /\ option_total_len (Some w) = Panic.
Proof.
  split; [vm_compute; reflexivity|]. split; [reflexivity|]. exists (wr_der (writer_of (TBase BBool)) true).
  split; vm_compute; reflexivity.
Qed.
Print Assumptions C27_option_refuted.

(** ** C28: OPTIONAL *)

(** [i] starts with the header of an object with length [l] and tag number [t] (modulo 2^32). *)
Definition starts_with_tag (t : N) (l : blength) (i : bytes) : Prop :=
  exists c k u idb lenb r, readable_header c k u l idb lenb /\ u mod 2 ^ 32 = t /\ i = idb ++ lenb ++ r.

(** The result of [T], as an option. *)
Definition present {T} (r : res (bytes * T)) : res (bytes * option T) :=
  match r with Ok (rem, x) => Ok (rem, Some x) | Err e => Err e | Incomplete n => Incomplete n | Panic => Panic end.

Lemma present_bind {T} (r : res (bytes * T)) : (let* (rem, x) := r in Ok (rem, Some x)) = present r.
Proof. destruct r as [[rem x]|e|n|]; reflexivity. Qed.

Lemma definite_content h i n d : h_length h = Definite n -> ber_object_content h i (S d) = take n i.
Proof.
  intros E. unfold ber_object_content. cbn [skip_content]. rewrite E. cbn [is_definite].
  assert (Z : forall k, n = N.of_nat k -> (k <= length i)%nat -> take n i = Ok (skipn k i, firstn k i)).
  { intros k -> Hk. unfold take, blen. destruct (N.leb_spec (N.of_nat k) (N.of_nat (length i))); [|lia].
    rewrite Nat2N.id. reflexivity. }
  destruct ((n =? 0) && (h_tag h =? TagEndOfContent)) eqn:B.
  - apply andb_true_iff in B as [B _]. apply N.eqb_eq in B. subst n. cbn [bind].
    rewrite Nat.sub_diag, (Z 0%nat) by lia. reflexivity.
  - destruct (N.leb_spec n (blen i)) as [H|H].
    + rewrite (Z (N.to_nat n)) by (unfold blen in H; lia). cbn [bind]. rewrite skipn_length.
      unfold blen in H. replace (length i - (length i - N.to_nat n))%nat with (N.to_nat n) by lia. reflexivity.
    + unfold take. destruct (N.leb_spec n (blen i)); [lia|]. reflexivity.
Qed.

Lemma starts_header t l i : bytes_ok i -> starts_with_tag t l i ->
  i <> [] /\ exists r h, parse_header i = Ok (r, h) /\ h_tag h = t /\ h_length h = l.
Proof.
  intros Hi (c & k & u & idb & lenb & r & HR & Et & ->). split.
  - pose proof HR as [(H1 & _) _]. apply ident_octets_len in H1. intros E. destruct idb; [change (blen (@nil N)) with 0 in H1; lia|discriminate].
  - exists r. eexists. split.
    + apply parse_header_ok; [exact Hi|]. exists c, k, u, l, idb, lenb. destruct HR. auto.
    + split; [exact Et|reflexivity].
Qed.

(** Reading [Option<T>], through whichever entry point, gives exactly what [T] gives when the tag is one of
    [T], and [None] without consuming anything when it is not, or when there is no input.  The one exception
    is in C28_indefinite_refuted. *)
Theorem C28_optional_partial {T} (P : parser T) (L : legacy T) (i : bytes) :
  regular P -> bytes_ok i ->
  let O := option_parser P in
  let readers_ber := [option_from_ber (ps_accept P) L; parse_ber_optional (codec_of P); ps_parse_ber O] in
  let readers_der := [option_from_der (ps_accept P) L; parse_der_optional (codec_of P); ps_parse_der O] in
  (i = [] -> Forall (fun rd => rd i = Ok ([], None)) (readers_ber ++ readers_der))
  /\ (forall t l, starts_with_tag t l i -> ps_accept P t = true ->
        option_from_ber (ps_accept P) L i = present (lg_from_ber L i)
        /\ option_from_der (ps_accept P) L i = present (lg_from_der L i)
        /\ parse_ber_optional (codec_of P) i = present (ps_parse_ber P i)
        /\ parse_der_optional (codec_of P) i = present (ps_parse_der P i)
        /\ ps_parse_der O i = present (ps_parse_der P i)
        /\ (l <> Indefinite -> ps_parse_ber O i = present (ps_parse_ber P i)))
  /\ (forall t l, starts_with_tag t l i -> ps_accept P t = false ->
        Forall (fun rd => rd i = Ok (i, None)) readers_ber
        /\ (l <> Indefinite -> Forall (fun rd => rd i = Ok (i, None)) readers_der)).
Proof.
  intros [R1 R2] Hi O rb rd. split; [|split].
  - intros ->. repeat constructor.
  - intros t l St A. destruct (starts_header t l i Hi St) as (Hne & r & h & Eh & Et & El).
    assert (Hz : (blen i =? 0) = false) by (apply N.eqb_neq; intros F; apply Hne, blen_zero, F).
    assert (Ed : header_parse_der i = if is_definite l then Ok (r, h) else Err (EDerConstraintFailed DCIndefiniteLength)).
    { unfold header_parse_der, header_parse_ber. rewrite Eh. cbn [bind]. rewrite El. reflexivity. }
    rewrite R1, R2. unfold O, option_from_ber, option_from_der, option_from. cbn [option_parser ps_parse_ber ps_parse_der].
    unfold parse_ber_optional, parse_der_optional, parse_ber, parse_der, option_parse, option_content.
    cbn [codec_of accept_tag ber_content der_content].
    rewrite Hz, Ed. change (header_parse_ber i) with (parse_header i). rewrite Eh. cbn [bind]. rewrite Et, A.
    split; [apply present_bind|]. split; [|split; [|split; [|split]]].
    + destruct l; cbn [is_definite]; rewrite ?Et, ?A; apply present_bind.
    + destruct (ber_object_content h r MAX_RECURSION) as [[r2 d]| | |]; try reflexivity. cbn [bind].
      destruct (ps_ber_content P h d) as [[r3 x]| | |]; reflexivity.
    + destruct l as [n|]; cbn [is_definite bind]; [|reflexivity]. rewrite Et, A, El.
      destruct (take n r) as [[r2 d]| | |]; try reflexivity. cbn [bind].
      destruct (ps_der_content P h d) as [[r3 x]| | |]; reflexivity.
    + destruct l as [n|]; cbn [is_definite bind]; [|reflexivity]. rewrite Et, A, El.
      unfold MAX_RECURSION. rewrite (definite_content h r n 49 El).
      destruct (take n r) as [[r2 d]| | |] eqn:Et2; try reflexivity. cbn [bind].
      apply take_ok in Et2 as [_ Et2]. rewrite (definite_content h d n 49 El), <- Et2, take_all. cbn [bind].
      destruct (ps_der_content P h d) as [[r3 x]| | |]; reflexivity.
    + destruct l as [n|]; [intros _|congruence].
      unfold MAX_RECURSION. rewrite (definite_content h r n 49 El).
      destruct (take n r) as [[r2 d]| | |] eqn:Et2; try reflexivity. cbn [bind].
      apply take_ok in Et2 as [_ Et2]. rewrite (definite_content h d n 49 El), <- Et2, take_all. cbn [bind].
      destruct (ps_ber_content P h d) as [[r3 x]| | |]; reflexivity.
  - intros t l St A. destruct (starts_header t l i Hi St) as (Hne & r & h & Eh & Et & El).
    assert (Hz : (blen i =? 0) = false) by (apply N.eqb_neq; intros F; apply Hne, blen_zero, F).
    unfold rb, rd, O, option_from_ber, option_from_der, option_from. cbn [option_parser ps_parse_ber ps_parse_der].
    unfold parse_ber_optional, parse_der_optional, option_parse, header_parse_der, header_parse_ber.
    cbn [codec_of accept_tag ber_content der_content]. split.
    + repeat constructor; rewrite Hz, Eh; cbn [bind]; rewrite Et, A; reflexivity.
    + destruct l as [n|]; [intros _|congruence].
      repeat constructor; rewrite Hz, Eh; cbn [bind]; rewrite El; cbn [is_definite bind]; rewrite Et, A; reflexivity.
Qed.
Print Assumptions C28_optional_partial.

Example C28_case :
  let P := parser_of (TBase (BUint 1)) in let L := legacy_of (TBase (BUint 1)) in
  regular P /\ starts_with_tag 2 (Definite 1) [2; 1; 9; 7] /\ ps_accept P 2 = true
  /\ starts_with_tag 4 (Definite 0) [4; 0; 2; 1] /\ ps_accept P 4 = false
  /\ ps_parse_ber (option_parser P) [2; 1; 9; 7] = Ok ([7], Some 9%Z)
  /\ option_from_der (ps_accept P) L [2; 1; 9; 7] = Ok ([7], Some 9%Z)
  /\ option_from_der (ps_accept P) L [2; 2; 0; 9; 7] = present (lg_from_der L [2; 2; 0; 9; 7])
  /\ option_from_der (ps_accept P) L [4; 0; 2; 1] = Ok ([4; 0; 2; 1], None).
Proof.
  split; [apply codec_regular|].
  split; [|split; [reflexivity|split; [|split; [reflexivity|]]]].
  - exists Universal, false, 2, [2], [1], [9; 7]. split; [|split; reflexivity].
    apply readable_written; [lia|lia|vm_compute; discriminate|constructor; lia|constructor; lia].
  - exists Universal, false, 4, [4], [0], [2; 1]. split; [|split; reflexivity].
    apply readable_written; [lia|lia|vm_compute; discriminate|constructor; lia|constructor; lia].
  - repeat split; vm_compute; reflexivity.
Qed.

(** [Option<T>::parse_ber] on an indefinite length: the content is fetched twice, the second time from the
    content itself.  What [T] accepts is rejected. *)
Theorem C28_indefinite_refuted :
  exists i, let P := parser_of (TVec (TBase (BUint 1))) in
    starts_with_tag 16 Indefinite i /\ ps_accept P 16 = true
    /\ ps_parse_ber P i = Ok ([], [1%Z])
    /\ ps_parse_ber (option_parser P) i = Incomplete 1
    /\ option_from_ber (ps_accept P) (legacy_of (TVec (TBase (BUint 1)))) i = Ok ([], Some [1%Z]).
Proof.
  exists [0x30; 0x80; 2; 1; 1; 0; 0]. cbv zeta. split.
  - exists Universal, true, 16, [0x30], [0x80], [2; 1; 1; 0; 0]. split; [|split; reflexivity]. split.
    + split; [apply (id_low Universal true 16); lia|]. split; [constructor|reflexivity].
    + split; [vm_compute; discriminate|discriminate].
  - repeat split; vm_compute; reflexivity.
Qed.
Print Assumptions C28_indefinite_refuted.

(** In fact no object of indefinite length is ever read. *)
Lemma content_twice h i r d r' d' : bytes_ok i -> h_length h = Indefinite ->
  ber_object_content h i MAX_RECURSION = Ok (r, d) -> ber_object_content h d MAX_RECURSION <> Ok (r', d').
Proof.
  intros Hi Hl E F. pose proof E as E0.
  apply ber_object_content_ok in E as (bs & Ei & Hc & _ & Ed); [|exact Hi]. rewrite Hl in Hc, Ed. cbn [content_of] in Ed.
  pose proof (contents_indefinite_len _ _ _ _ marker_like_len Hc) as H2.
  set (tl := skipn (length bs - 2) bs). assert (Eb : bs = d ++ tl) by (subst d tl; symmetry; apply firstn_skipn).
  assert (Ht : (length tl = 2)%nat) by (unfold tl; rewrite skipn_length; lia). clearbody tl. clear Ed.
  subst bs. rewrite <- app_assoc in Ei. subst i. apply bytes_ok_app in Hi as [Hd Hx].
  pose proof (streaming_ber_object_content MAX_RECURSION h d Hd) as S. cbv beta in S. rewrite F in S. destruct S as [_ S].
  rewrite (S _ Hx) in E0. injection E0 as E1 _. apply (f_equal (@length N)) in E1. rewrite !app_length in E1. lia.
Qed.

Theorem C28_indefinite_never {T} (P : parser T) (i : bytes) (t : N) :
  bytes_ok i -> starts_with_tag t Indefinite i -> ps_accept P t = true -> forall x, ps_parse_ber (option_parser P) i <> Ok x.
Proof.
  intros Hi St A x E. destruct (starts_header t Indefinite i Hi St) as (Hne & r & h & Eh & Et & El).
  cbn [option_parser ps_parse_ber] in E. unfold option_parse in E.
  destruct (N.eqb_spec (blen i) 0) as [H0|_]; [apply Hne, blen_zero, H0|].
  change (header_parse_ber i) with (parse_header i) in E. rewrite Eh in E. cbn [bind] in E. rewrite Et, A in E.
  apply bind_ok in E as ([r2 d] & E1 & E). apply bind_ok in E as ([r3 o] & E2 & _).
  unfold option_content in E2. rewrite Et, A in E2. apply bind_ok in E2 as ([r4 d2] & E3 & _).
  assert (Hr : bytes_ok r).
  { apply parse_header_ok in Eh as (c & k & u & l & idb & lenb & _ & _ & -> & _); [|exact Hi].
    rewrite app_assoc in Hi. apply bytes_ok_app in Hi. tauto. }
  exact (content_twice _ _ _ _ _ _ Hr El E1 E3).
Qed.
Print Assumptions C28_indefinite_never.
