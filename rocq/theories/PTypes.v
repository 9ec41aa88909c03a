(** Type expressions over the primitive types: what they stand for in the model and in the specification,
    and that the two agree. *)
From Verif Require Import Base MHeader MEncode SHeader PArith PHeader PEncode MBer SBer PBer PIter PCodec.
From Verif Require Import MInt SInt MSeg SSeg MOid MText SText PropText.
From Verif Require Import MTime STime MCont SCont PCont SBase PBase.

(** The primitive types, by the Coq type of their values. *)
Inductive base : Type -> Type :=
| BBool : base bool | BNull : base unit
| BInt (w : nat) : base Z | BUint (w : nat) : base Z | BEnum : base Z | BInteger : base bytes
| BOctets : base bytes | BSlice : base bytes | BBits : base bitstring | BOid : base oid
| BString (k : string_kind) : base (list N) | BStr : base (list N) | BOwnedString : base (list N)
| BBmp : base (list N) | BUniversal : base (list N)
| BSequence : base bytes | BSet : base bytes
| BUtcTime : base datetime | BGeneralizedTime : base datetime.

(** Types built from them: [Vec] (and [SequenceOf]), arrays, [SetOf], [BTreeSet] (ordered by [cmp]),
    [TaggedExplicit] and [TaggedImplicit]. *)
Inductive ty : Type -> Type :=
| TBase A (b : base A) : ty A
| TVec A (t : ty A) : ty (list A)
| TArray A (n : nat) (t : ty A) : ty (list A)
| TSetOf A (t : ty A) : ty (list A)
| TBTreeSet A (cmp : A -> A -> comparison) (t : ty A) : ty (list A)
| TExplicit A (c : class) (n : N) (t : ty A) : ty A
| TImplicit A (c : class) (n : N) (t : ty A) : ty A.
Arguments TBase {A}.
Arguments TVec {A}.
Arguments TArray {A}.
Arguments TSetOf {A}.
Arguments TBTreeSet {A}.
Arguments TExplicit {A}.
Arguments TImplicit {A}.

(** ** The model of a type *)

Definition base_codec {A} (b : base A) : codec A :=
  match b with
  | BBool => bool_codec | BNull => null_codec
  | BInt w => int_codec w | BUint w => uint_codec w | BEnum => enum_codec | BInteger => integer_codec
  | BOctets => octet_codec | BSlice => slice_codec | BBits => bitstring_codec | BOid => oid_codec
  | BString k => string_codec k | BStr => str_codec | BOwnedString => ostring_codec
  | BBmp => bmp_codec | BUniversal => universal_codec
  | BSequence => raw_codec TagSequence | BSet => raw_codec TagSet
  | BUtcTime => utc_codec | BGeneralizedTime => gen_codec
  end.
Definition base_tober {A} (b : base A) : A -> tober :=
  match b with
  | BBool => tober_bool | BNull => fun _ => tober_null
  | BInt w => tober_int w | BUint w => tober_uint w | BEnum => tober_enum | BInteger => tober_integer
  | BOctets => tober_octet | BSlice => tober_octet | BBits => tober_bitstring | BOid => tober_oid
  | BString k => tober_string k | BStr => tober_str | BOwnedString => tober_str
  | BBmp => tober_bmp | BUniversal => tober_universal
  | BSequence => raw_tober TagSequence | BSet => raw_tober TagSet
  | BUtcTime => tober_utc | BGeneralizedTime => tober_gen
  end.
Definition base_form {A} (b : base A) : bool := match b with BSequence | BSet => true | _ => false end.
Definition base_tag {A} (b : base A) : N :=
  match b with
  | BBool => TagBoolean | BNull => TagNull
  | BInt _ | BUint _ | BInteger => TagInteger | BEnum => TagEnumerated
  | BOctets | BSlice => TagOctetString | BBits => TagBitString | BOid => TagOid
  | BString k => kind_tag k | BStr | BOwnedString => TagUtf8String
  | BBmp => TagBmpString | BUniversal => TagUniversalString
  | BSequence => TagSequence | BSet => TagSet
  | BUtcTime => TagUtcTime | BGeneralizedTime => TagGeneralizedTime
  end.

Fixpoint parser_of {A} (t : ty A) : parser A :=
  match t with
  | TBase b => codec_parser (base_codec b)
  | TVec t => vec_parser (parser_of t)
  | TArray n t => array_parser n (parser_of t)
  | TSetOf t => setof_parser (parser_of t)
  | TBTreeSet cmp t => btreeset_parser cmp (parser_of t)
  | TExplicit c n t => explicit_parser c n (parser_of t)
  | TImplicit c n t => implicit_parser c n (parser_of t)
  end.

(** Arrays have no [TryFrom<Any>], [FromBer] and [FromDer]: see [has_legacy]. *)
Definition no_legacy {A} : legacy A :=
  mk_legacy 0 (fun _ => Err EUnsupported) (fun _ => Err EUnsupported) (fun _ => Err EUnsupported) (fun _ => Err EUnsupported).
Fixpoint legacy_of {A} (t : ty A) : legacy A :=
  match t with
  | TBase b => codec_legacy (base_tag b) (base_codec b)
  | TVec t => vec_legacy (legacy_of t)
  | TArray n t => no_legacy
  | TSetOf t => setof_legacy (legacy_of t)
  | TBTreeSet cmp t => btreeset_legacy cmp (legacy_of t)
  | TExplicit c n t => explicit_legacy c n (legacy_of t)
  | TImplicit c n t => implicit_legacy c n (legacy_of t)
  end.
Fixpoint has_legacy {A} (t : ty A) : Prop :=
  match t with
  | TBase _ => True
  | TArray _ _ => False
  | TVec t => has_legacy t
  | TSetOf t => has_legacy t
  | TBTreeSet _ t => has_legacy t
  | TExplicit _ _ t => has_legacy t
  | TImplicit _ _ t => has_legacy t
  end.

Fixpoint writer_of {A} (t : ty A) : writer A :=
  match t with
  | TBase b => same_writer Universal (base_form b) (base_tag b) (base_tober b)
  | TVec t => vec_writer (writer_of t)
  | TArray n t => array_writer (writer_of t)
  | TSetOf t => setof_writer (writer_of t)
  | TBTreeSet cmp t => btreeset_writer (writer_of t)
  | TExplicit c n t => explicit_writer c n (writer_of t)
  | TImplicit c n t => implicit_writer c n (writer_of t)
  end.

(** ** The specification of a type *)

Definition base_syntax {A} (b : base A) : syntax A :=
  match b with
  | BBool => bool_syntax | BNull => null_syntax
  | BInt w => int_syntax w | BUint w => uint_syntax w | BEnum => enum_syntax | BInteger => integer_syntax
  | BOctets => octet_syntax | BSlice => octet_syntax | BBits => bitstring_syntax | BOid => oid_syntax
  | BString k => text_syntax (universal_string_tag k) (kind_alphabet k)
  | BStr | BOwnedString => text_syntax 12 scalar
  | BBmp => bmp_syntax | BUniversal => universal_string_syntax
  | BSequence => raw_syntax 16 | BSet => raw_syntax 17
  | BUtcTime => utc_syntax | BGeneralizedTime => gen_syntax
  end.
Fixpoint syntax_of {A} (t : ty A) : syntax A :=
  match t with
  | TBase b => base_syntax b
  | TVec t => list_syntax 16 (syntax_of t)
  | TArray n t => array_syntax n (syntax_of t)
  | TSetOf t => list_syntax 17 (syntax_of t)
  | TBTreeSet cmp t => set_syntax cmp (syntax_of t)
  | TExplicit c n t => explicit_syntax c n (syntax_of t)
  | TImplicit c n t => implicit_syntax c n (syntax_of t)
  end.

(** Widths of at most 128 bits, tag numbers of at most 32 bits, orders that are antisymmetric, and nothing
    but untagged types other than [SetOf] under an implicit tag. *)
Definition base_wf {A} (b : base A) : Prop :=
  match b with BInt w | BUint w => (1 <= w <= 16)%nat | _ => True end.
Definition implicit_ok {A} (t : ty A) : Prop :=
  match t with TExplicit _ _ _ | TImplicit _ _ _ | TSetOf _ => False | _ => True end.
Fixpoint wf {A} (t : ty A) : Prop :=
  match t with
  | TBase b => base_wf b
  | TVec t => wf t
  | TArray _ t => wf t
  | TSetOf t => wf t
  | TBTreeSet cmp t => (forall a b, cmp b a = CompOpp (cmp a b)) /\ wf t
  | TExplicit _ n t => n < 2 ^ 32 /\ wf t
  | TImplicit _ n t => n < 2 ^ 32 /\ implicit_ok t /\ wf t
  end.

(** ** Soundness *)

Lemma base_types_sound {A} (b : base A) :
  base_wf b -> base_sound (base_codec b) (base_tober b) (base_form b) (base_tag b) (base_syntax b).
Proof.
  destruct b; cbn [base_wf base_codec base_tober base_form base_tag base_syntax]; intros H.
  - apply bool_base.
  - apply null_base.
  - apply int_base. exact H.
  - apply uint_base. exact H.
  - apply enum_base.
  - apply integer_base.
  - apply octet_base.
  - apply slice_base.
  - apply bitstring_base.
  - apply oid_base.
  - rewrite kind_tag_eq. apply string_base.
  - apply str_base.
  - apply ostring_base.
  - apply bmp_base.
  - apply universal_base.
  - apply raw_base. reflexivity.
  - apply raw_base. reflexivity.
  - apply utc_base.
  - apply gen_base.
Qed.

Lemma types_sound {A} (t : ty A) :
  wf t ->
  syntax_ok (syntax_of t) /\ parser_sound (parser_of t) (syntax_of t) /\ writer_sound (writer_of t) (syntax_of t)
  /\ (has_legacy t -> legacy_sound (legacy_of t) (syntax_of t))
  /\ (implicit_ok t -> header_free (parser_of t) /\ form_sound (writer_of t) (syntax_of t)
                       /\ (has_legacy t -> class_free (legacy_of t))).
Proof.
  induction t as [A b|A t IH|A n t IH|A t IH|A cmp t IH|A c n t IH|A c n t IH];
    cbn [wf syntax_of parser_of writer_of legacy_of has_legacy implicit_ok]; intros Hwf.
  - pose proof (base_types_sound b Hwf) as B.
    split; [eapply base_syntax_ok; exact B|]. split; [eapply base_parser_sound; exact B|].
    split; [eapply base_writer_sound; exact B|]. split; [intros _; eapply base_legacy_sound; exact B|].
    intros _. split; [apply B|]. split; [eapply base_form_sound; exact B|]. intros _. apply B.
  - destruct (IH Hwf) as (S & P & W & L & _).
    split; [apply list_syntax_ok; [lia|exact S]|]. split; [apply vec_parser_sound; assumption|].
    split; [apply vec_writer_sound; assumption|]. split; [intros HL; apply vec_legacy_sound; [apply L; exact HL|exact S]|].
    intros _. split; [apply vec_header_free|]. split; [apply (const_form_sound _ _ Universal true 16); reflexivity|].
    intros _. apply vec_class_free.
  - destruct (IH Hwf) as (S & P & W & _ & _).
    split; [apply array_syntax_ok; exact S|]. split; [apply array_parser_sound; assumption|].
    split; [apply array_writer_sound; assumption|]. split; [tauto|].
    intros _. split; [apply array_header_free|]. split; [apply (const_form_sound _ _ Universal true 16); reflexivity|]. tauto.
  - destruct (IH Hwf) as (S & P & W & L & _).
    split; [apply list_syntax_ok; [lia|exact S]|]. split; [apply setof_parser_sound; assumption|].
    split; [apply setof_writer_sound; assumption|]. split; [intros HL; apply setof_legacy_sound; [apply L; exact HL|exact S]|]. tauto.
  - destruct Hwf as [Hc Hwf]. destruct (IH Hwf) as (S & P & W & L & _).
    split; [apply set_syntax_ok; exact S|]. split; [apply btreeset_parser_sound; assumption|].
    split; [apply btreeset_writer_sound; assumption|].
    split; [intros HL; apply btreeset_legacy_sound; [exact Hc|apply L; exact HL|exact S]|].
    intros _. split; [apply btreeset_header_free|]. split; [apply (const_form_sound _ _ Universal true 17); reflexivity|].
    intros _. apply btreeset_class_free.
  - destruct Hwf as [Hn Hwf]. destruct (IH Hwf) as (S & P & W & L & _).
    split; [apply explicit_syntax_ok; assumption|]. split; [apply explicit_parser_sound; assumption|].
    split; [apply explicit_writer_sound; assumption|].
    split; [intros HL; apply explicit_legacy_sound; [exact Hn|apply L; exact HL|exact S]|]. tauto.
  - destruct Hwf as (Hn & Hi & Hwf). destruct (IH Hwf) as (S & P & W & L & I). destruct (I Hi) as (I1 & I2 & I3).
    split; [apply implicit_syntax_ok; assumption|]. split; [apply implicit_parser_sound; assumption|].
    split; [apply implicit_writer_sound; assumption|].
    split; [intros HL; apply implicit_legacy_sound; [exact Hn|apply I3; exact HL|apply L; exact HL|exact S]|]. tauto.
Qed.
