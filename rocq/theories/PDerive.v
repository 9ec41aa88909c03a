(** Types declared with the derive macros, built over the types of PTypes.v: what they stand for in the
    model and in the specification, and that the two agree. *)
From Verif Require Import Base MHeader MEncode SHeader PArith PHeader PEncode MBer SBer PBer PIter PCodec.
From Verif Require Import MInt SInt MSeg SSeg MOid MText SText PropText.
From Verif Require Import MTime STime MCont SCont PCont SBase PBase PTypes PropCont MDerive SDerive.

(** Derived types; [DStruct set] is a SEQUENCE or SET. *)
Inductive dty : Type -> Type :=
| DTy A (t : ty A) : dty A
| DVec A (t : dty A) : dty (list A)
| DStruct A (set : bool) (fs : dfields A) : dty A
| DChoice A (k : option tag_kind) (vs : dvariants A) : dty A
| DEnum (ds : list N) : dty N
| DAlias A (t : dty A) : dty A
with dfields : Type -> Type :=
| FNil : dfields unit
| FPlain A B (t : dty A) (fs : dfields B) : dfields (A * B)
| FOption A B (t : dty A) (fs : dfields B) : dfields (option A * B)
| FDefault A B (d : A) (t : dty A) (fs : dfields B) : dfields (A * B)
| FTagged A B (g : tagging) (t : dty A) (fs : dfields B) : dfields (A * B)
| FTaggedOption A B (g : tagging) (t : dty A) (fs : dfields B) : dfields (option A * B)
| FTaggedDefault A B (g : tagging) (d : A) (t : dty A) (fs : dfields B) : dfields (A * B)
with dvariants : Type -> Type :=
| VNil : dvariants Empty_set
| VCons A B (n : N) (t : dty A) (vs : dvariants B) : dvariants (A + B).
Arguments DTy {A}.
Arguments DVec {A}.
Arguments DStruct {A}.
Arguments DChoice {A}.
Arguments DAlias {A}.
Arguments FPlain {A B}.
Arguments FOption {A B}.
Arguments FDefault {A B}.
Arguments FTagged {A B}.
Arguments FTaggedOption {A B}.
Arguments FTaggedDefault {A B}.
Arguments VCons {A B}.

Scheme dty_ind' := Induction for dty Sort Prop
  with dfields_ind' := Induction for dfields Sort Prop
  with dvariants_ind' := Induction for dvariants Sort Prop.
Combined Scheme dty_mutind from dty_ind', dfields_ind', dvariants_ind'.

(** ** The model of a derived type *)

Definition struct_tag (set : bool) : N := if set then TagSet else TagSequence.

Fixpoint dparser_of {A} (t : dty A) : parser A :=
  match t with
  | DTy t => parser_of t
  | DVec t => vec_parser (dparser_of t)
  | DStruct set fs => struct_parser (struct_tag set) (ber_of fs) (der_of fs)
  | DChoice k vs => choice_parser k (accept_of k vs) (ber_variants k vs) (der_variants k vs)
  | DEnum ds => denum_parser ds
  | DAlias t => alias_parser (dparser_of t)
  end
with ber_of {A} (fs : dfields A) : fields A :=
  match fs with
  | FNil => no_field
  | FPlain t fs => field (fld_plain (dparser_of t)) (ber_of fs)
  | FOption t fs => field (fld_plain (option_parser (dparser_of t))) (ber_of fs)
  | FDefault d t fs => field (with_default d (fld_plain (option_parser (dparser_of t)))) (ber_of fs)
  | FTagged g t fs => field (fld_plain (tagged_parser g (dparser_of t))) (ber_of fs)
  | FTaggedOption g t fs => field (fld_tagged_optional g (dparser_of t)) (ber_of fs)
  | FTaggedDefault g d t fs => field (with_default d (fld_tagged_optional g (dparser_of t))) (ber_of fs)
  end
with der_of {A} (fs : dfields A) : fields A :=
  match fs with
  | FNil => no_field
  | FPlain t fs => field (fld_plain_der (dparser_of t)) (der_of fs)
  | FOption t fs => field (fld_plain_der (option_parser (dparser_of t))) (der_of fs)
  | FDefault d t fs => field (with_default d (fld_plain_der (option_parser (dparser_of t)))) (der_of fs)
  | FTagged g t fs => field (fld_plain_der (tagged_parser g (dparser_of t))) (der_of fs)
  | FTaggedOption g t fs => field (fld_tagged_optional_der g (dparser_of t)) (der_of fs)
  | FTaggedDefault g d t fs => field (with_default d (fld_tagged_optional_der g (dparser_of t))) (der_of fs)
  end
with accept_of {A} (k : option tag_kind) (vs : dvariants A) : N -> bool :=
  match vs with
  | VNil => fun _ => false
  | VCons n t vs => fun x => (match k with Some _ => x =? n | None => ps_accept (dparser_of t) x end) || accept_of k vs x
  end
with ber_variants {A} (k : option tag_kind) (vs : dvariants A) : variants A :=
  match vs with
  | VNil => no_variant
  | VCons n t vs =>
      match k with
      | Some kd => tagged_variant kd n (ps_parse_ber (dparser_of t)) (ps_ber_content (dparser_of t)) (ber_variants k vs)
      | None => untagged_variant (ps_accept (dparser_of t)) (ps_ber_content (dparser_of t)) (ber_variants k vs)
      end
  end
with der_variants {A} (k : option tag_kind) (vs : dvariants A) : variants A :=
  match vs with
  | VNil => no_variant
  | VCons n t vs =>
      match k with
      | Some kd => tagged_variant kd n (ps_parse_der (dparser_of t)) (ps_der_content (dparser_of t)) (der_variants k vs)
      | None => untagged_variant (ps_accept (dparser_of t)) (ps_der_content (dparser_of t)) (der_variants k vs)
      end
  end.

(** [T::accept_tag] is that of [DynTagged], also for the older traits. *)
Fixpoint dlegacy_of {A} (t : dty A) : legacy A :=
  match t with
  | DTy t => legacy_of t
  | DVec t => vec_legacy (dlegacy_of t)
  | DStruct set fs => struct_legacy (struct_tag set) (lber_of fs) (lder_of fs) (checks_of fs)
  | DChoice k vs => no_legacy
  | DEnum ds => no_legacy
  | DAlias t => alias_legacy (dlegacy_of t)
  end
with lber_of {A} (fs : dfields A) : fields A :=
  match fs with
  | FNil => no_field
  | FPlain t fs => field (lg_from_ber (dlegacy_of t)) (lber_of fs)
  | FOption t fs => field (option_from_ber (ps_accept (dparser_of t)) (dlegacy_of t)) (lber_of fs)
  | FDefault d t fs => field (with_default d (option_from_ber (ps_accept (dparser_of t)) (dlegacy_of t))) (lber_of fs)
  | FTagged g t fs => field (lg_from_ber (tagged_legacy g (dlegacy_of t))) (lber_of fs)
  | FTaggedOption g t fs => field (lfld_tagged_optional g (dlegacy_of t)) (lber_of fs)
  | FTaggedDefault g d t fs => field (with_default d (lfld_tagged_optional g (dlegacy_of t))) (lber_of fs)
  end
with lder_of {A} (fs : dfields A) : fields A :=
  match fs with
  | FNil => no_field
  | FPlain t fs => field (lg_from_der (dlegacy_of t)) (lder_of fs)
  | FOption t fs => field (option_from_der (ps_accept (dparser_of t)) (dlegacy_of t)) (lder_of fs)
  | FDefault d t fs => field (with_default d (option_from_der (ps_accept (dparser_of t)) (dlegacy_of t))) (lder_of fs)
  | FTagged g t fs => field (lg_from_der (tagged_legacy g (dlegacy_of t))) (lder_of fs)
  | FTaggedOption g t fs => field (lfld_tagged_optional_der g (dlegacy_of t)) (lder_of fs)
  | FTaggedDefault g d t fs => field (with_default d (lfld_tagged_optional_der g (dlegacy_of t))) (lder_of fs)
  end
with checks_of {A} (fs : dfields A) : list (any -> res unit) :=
  match fs with
  | FNil => []
  | FPlain t fs => lg_check (dlegacy_of t) :: checks_of fs
  | FOption t fs => lg_check (dlegacy_of t) :: checks_of fs
  | FDefault d t fs => lg_check (dlegacy_of t) :: checks_of fs
  | FTagged g t fs => lg_check (dlegacy_of t) :: checks_of fs
  | FTaggedOption g t fs => lg_check (dlegacy_of t) :: checks_of fs
  | FTaggedDefault g d t fs => lg_check (dlegacy_of t) :: checks_of fs
  end.

Fixpoint dwriter_of {A} (t : dty A) : writer A :=
  match t with
  | DTy t => writer_of t
  | DVec t => vec_writer (dwriter_of t)
  | DStruct set fs => struct_writer (struct_tag set) (ber_parts fs) (der_parts fs)
  | DChoice k vs => variants_writer k vs
  | DEnum ds => denum_writer
  | DAlias t => alias_writer (dwriter_of t)
  end
with ber_parts {A} (fs : dfields A) : A -> list part :=
  match fs with
  | FNil => fun _ => []
  | FPlain t fs => fun v => plain_part (wr_ber (dwriter_of t) (fst v)) :: ber_parts fs (snd v)
  | FOption t fs => fun v => option_part (option_map (wr_ber (dwriter_of t)) (fst v)) :: ber_parts fs (snd v)
  | FDefault d t fs => fun v => plain_part (wr_ber (dwriter_of t) (fst v)) :: ber_parts fs (snd v)
  | FTagged g t fs => fun v => tagged_part g (wr_ber (dwriter_of t) (fst v)) :: ber_parts fs (snd v)
  | FTaggedOption g t fs => fun v => tagged_option_part g (option_map (wr_ber (dwriter_of t)) (fst v)) :: ber_parts fs (snd v)
  | FTaggedDefault g d t fs => fun v => tagged_part g (wr_ber (dwriter_of t) (fst v)) :: ber_parts fs (snd v)
  end
with der_parts {A} (fs : dfields A) : A -> list part :=
  match fs with
  | FNil => fun _ => []
  | FPlain t fs => fun v => plain_part (wr_der (dwriter_of t) (fst v)) :: der_parts fs (snd v)
  | FOption t fs => fun v => option_part (option_map (wr_der (dwriter_of t)) (fst v)) :: der_parts fs (snd v)
  | FDefault d t fs => fun v => plain_part (wr_der (dwriter_of t) (fst v)) :: der_parts fs (snd v)
  | FTagged g t fs => fun v => tagged_part g (wr_der (dwriter_of t) (fst v)) :: der_parts fs (snd v)
  | FTaggedOption g t fs => fun v => tagged_option_part g (option_map (wr_der (dwriter_of t)) (fst v)) :: der_parts fs (snd v)
  | FTaggedDefault g d t fs => fun v => tagged_part g (wr_der (dwriter_of t) (fst v)) :: der_parts fs (snd v)
  end
with variants_writer {A} (k : option tag_kind) (vs : dvariants A) : writer A :=
  match vs with
  | VNil => no_variant_writer
  | VCons n t vs => sum_writer (variant_writer k n (dwriter_of t)) (variants_writer k vs)
  end.

(** ** The specification of a derived type *)

(** Tag numbers of the values. *)
Definition base_tags {A} (b : base A) : list N := match b with BOid => [6; 13] | _ => [base_tag b] end.
Definition ty_tags {A} (t : ty A) : list N :=
  match t with
  | TBase b => base_tags b
  | TVec _ | TArray _ _ => [16]
  | TSetOf _ | TBTreeSet _ _ => [17]
  | TExplicit _ n _ | TImplicit _ n _ => [n]
  end.
Fixpoint dtags {A} (t : dty A) : list N :=
  match t with
  | DTy t => ty_tags t
  | DVec _ => [16]
  | DStruct set _ => [if set then 17 else 16]
  | DChoice k vs => vtags k vs
  | DEnum _ => [10]
  | DAlias t => dtags t
  end
with vtags {A} (k : option tag_kind) (vs : dvariants A) : list N :=
  match vs with
  | VNil => []
  | VCons n t vs => (match k with Some _ => [n] | None => dtags t end) ++ vtags k vs
  end.

(** [w]: values as written by this implementation: components with a default value are always present,
    and components with an implicit tag keep the size of their length octets (see C65). *)
Definition tagged_syntax {A} (w : bool) (g : tagging) (S : syntax A) : syntax A :=
  match tg_kind g with
  | KExplicit => explicit_syntax (tg_class g) (tg_num g) S
  | KImplicit => implicit_syntax (tg_class g) (tg_num g) (if w then fit_syntax S else S)
  end.
Definition variant_syntax {A} (k : option tag_kind) (n : N) (S : syntax A) : syntax A :=
  match k with
  | None => S
  | Some KExplicit => explicit_syntax ContextSpecific n S
  | Some KImplicit => implicit_syntax ContextSpecific n S
  end.
Definition present_or_default {A B} (w : bool) (tags : list N) (d : A) (S : syntax A) (C : B -> bytes -> Prop)
  : A * B -> bytes -> Prop := if w then component S C else default_component tags d S C.

Fixpoint dsyntax_of (w : bool) {A} (t : dty A) : syntax A :=
  match t with
  | DTy t => syntax_of t
  | DVec t => list_syntax 16 (dsyntax_of w t)
  | DStruct set fs => struct_syntax (if set then 17 else 16) (valid_fields w fs) (components_of w fs)
  | DChoice k vs => variants_syntax w k vs
  | DEnum ds => enumerated_syntax ds
  | DAlias t => dsyntax_of w t
  end
with components_of (w : bool) {A} (fs : dfields A) : A -> bytes -> Prop :=
  match fs with
  | FNil => no_component
  | FPlain t fs => component (dsyntax_of w t) (components_of w fs)
  | FOption t fs => optional_component (dtags t) (dsyntax_of w t) (components_of w fs)
  | FDefault d t fs => present_or_default w (dtags t) d (dsyntax_of w t) (components_of w fs)
  | FTagged g t fs => component (tagged_syntax w g (dsyntax_of w t)) (components_of w fs)
  | FTaggedOption g t fs =>
      optional_component [tg_num g] (tagged_syntax w g (dsyntax_of w t)) (components_of w fs)
  | FTaggedDefault g d t fs =>
      present_or_default w [tg_num g] d (tagged_syntax w g (dsyntax_of w t)) (components_of w fs)
  end
with valid_fields (w : bool) {A} (fs : dfields A) : A -> Prop :=
  match fs with
  | FNil => fun _ => True
  | FPlain t fs => fun v => sx_valid (dsyntax_of w t) (fst v) /\ valid_fields w fs (snd v)
  | FOption t fs => fun v => match fst v with Some x => sx_valid (dsyntax_of w t) x | None => True end
                             /\ valid_fields w fs (snd v)
  | FDefault d t fs => fun v => sx_valid (dsyntax_of w t) (fst v) /\ valid_fields w fs (snd v)
  | FTagged g t fs => fun v => sx_valid (tagged_syntax w g (dsyntax_of w t)) (fst v) /\ valid_fields w fs (snd v)
  | FTaggedOption g t fs =>
      fun v => match fst v with Some x => sx_valid (tagged_syntax w g (dsyntax_of w t)) x | None => True end
               /\ valid_fields w fs (snd v)
  | FTaggedDefault g d t fs =>
      fun v => sx_valid (tagged_syntax w g (dsyntax_of w t)) (fst v) /\ valid_fields w fs (snd v)
  end
with variants_syntax (w : bool) {A} (k : option tag_kind) (vs : dvariants A) : syntax A :=
  match vs with
  | VNil => void_syntax
  | VCons n t vs => sum_syntax (variant_syntax k n (dsyntax_of w t)) (variants_syntax w k vs)
  end.

(** Which types may stand under an implicit tag: [r] for reading, otherwise also for writing as
    [TaggedImplicit] or as a variant. *)
Fixpoint dimplicit_ok {A} (t : dty A) : Prop :=
  match t with
  | DTy t => match t with TExplicit _ _ _ | TImplicit _ _ _ => False | _ => True end
  | DChoice _ _ => False
  | DAlias t => dimplicit_ok t
  | _ => True
  end.
(** Types whose [DynTagged] methods tell the form written ([SetOf] does not). *)
Fixpoint form_ok {A} (t : dty A) : Prop :=
  match t with
  | DTy t => match t with TSetOf _ => False | _ => True end
  | DChoice k vs => forms_ok k vs
  | DAlias t => form_ok t
  | _ => True
  end
with forms_ok {A} (k : option tag_kind) (vs : dvariants A) : Prop :=
  match vs with
  | VNil => True
  | VCons _ t vs => match k with Some KExplicit => True | _ => form_ok t end /\ forms_ok k vs
  end.

Definition tagging_ok {A} (g : tagging) (t : dty A) : Prop :=
  tg_num g < 2 ^ 16 /\ match tg_kind g with KExplicit => True | KImplicit => dimplicit_ok t end.
Fixpoint dwf {A} (t : dty A) : Prop :=
  match t with
  | DTy t => wf t
  | DVec t => dwf t
  | DStruct _ fs => fields_wf fs
  | DChoice k vs => NoDup (vtags k vs) /\ variants_wf k vs
  | DEnum ds => Forall (fun d => d < 2 ^ 32) ds
  | DAlias t => dwf t
  end
with fields_wf {A} (fs : dfields A) : Prop :=
  match fs with
  | FNil => True
  | FPlain t fs => dwf t /\ fields_wf fs
  | FOption t fs => dwf t /\ fields_wf fs
  | FDefault _ t fs => dwf t /\ fields_wf fs
  | FTagged g t fs => tagging_ok g t /\ dwf t /\ fields_wf fs
  | FTaggedOption g t fs => tagging_ok g t /\ dwf t /\ fields_wf fs
  | FTaggedDefault g _ t fs => tagging_ok g t /\ dwf t /\ fields_wf fs
  end
with variants_wf {A} (k : option tag_kind) (vs : dvariants A) : Prop :=
  match vs with
  | VNil => True
  | VCons n t vs =>
      n < 2 ^ 32 /\ match k with Some KImplicit => dimplicit_ok t | _ => True end /\ dwf t /\ variants_wf k vs
  end.

(** Types that can be written: no OPTIONAL component (C65), and only variants that tell their form. *)
Fixpoint writable {A} (t : dty A) : Prop :=
  match t with
  | DTy _ => True
  | DVec t => writable t
  | DStruct _ fs => fields_writable fs
  | DChoice k vs => forms_ok k vs /\ variants_writable vs
  | DEnum _ => True
  | DAlias t => writable t
  end
with fields_writable {A} (fs : dfields A) : Prop :=
  match fs with
  | FNil => True
  | FPlain t fs => writable t /\ fields_writable fs
  | FDefault _ t fs => writable t /\ fields_writable fs
  | FTagged _ t fs => writable t /\ fields_writable fs
  | FTaggedDefault _ _ t fs => writable t /\ fields_writable fs
  | FOption _ _ | FTaggedOption _ _ _ => False
  end
with variants_writable {A} (vs : dvariants A) : Prop :=
  match vs with
  | VNil => True
  | VCons _ t vs => writable t /\ variants_writable vs
  end.

(** Types with [FromBer] and [FromDer]. *)
Fixpoint has_dlegacy {A} (t : dty A) : Prop :=
  match t with
  | DTy t => has_legacy t
  | DVec t => has_dlegacy t
  | DStruct _ fs => fields_legacy fs
  | DChoice _ _ | DEnum _ => False
  | DAlias t => has_dlegacy t
  end
with fields_legacy {A} (fs : dfields A) : Prop :=
  match fs with
  | FNil => True
  | FPlain t fs => has_dlegacy t /\ fields_legacy fs
  | FOption t fs => has_dlegacy t /\ fields_legacy fs
  | FDefault _ t fs => has_dlegacy t /\ fields_legacy fs
  | FTagged _ t fs => has_dlegacy t /\ fields_legacy fs
  | FTaggedOption _ t fs => has_dlegacy t /\ fields_legacy fs
  | FTaggedDefault _ _ t fs => has_dlegacy t /\ fields_legacy fs
  end.

(** ** Soundness *)

(** The constraint check of the older traits is left out: see C69. *)
Definition no_check {T} (L : legacy T) : legacy T :=
  mk_legacy (lg_tag L) (lg_try_from L) (fun _ => Ok tt) (lg_from_ber L) (lg_from_der L).

Lemma no_check_sound {T} (L : legacy T) (S : syntax T) : legacy_sound L S -> legacy_sound (no_check L) S.
Proof.
  intros (H1 & H2 & H3). split; [exact H1|]. split; [|exact H3].
  intros v cb c k t E C Hn. destruct (H2 v cb c k t E C Hn) as [Et H]. split; [exact Et|].
  intros rt rh h. split; [apply (H rt rh)|reflexivity].
Qed.

Lemma no_check_class_free {T} (L : legacy T) : class_free L -> class_free (no_check L).
Proof. intros H h h' d E1 E2 E3. split; [apply (H h h' d E1 E2 E3)|reflexivity]. Qed.

(** What is known of a type. *)
Record sound {A} (P : parser A) (L : legacy A) (W : writer A) (S : syntax A) (tags : list N)
  (Writable Legacy Implicit Form : Prop) : Prop := mk_sound {
  so_syntax : syntax_ok S;
  so_parser : parser_sound P S;
  so_accept : forall n, ps_accept P n = true <-> In n tags;
  so_writer : Writable -> writer_sound W S;
  so_info : Writable -> forall v cb c k t, sx_ident S v = (c, k, t) -> sx_content S v cb ->
    tb_class (wr_ber W v) = c /\ tb_constructed (wr_ber W v) = k
    /\ tb_class (wr_der W v) = c /\ tb_constructed (wr_der W v) = k;
  so_form : Form -> forall v cb c k t, sx_ident S v = (c, k, t) -> sx_content S v cb ->
    wr_class W v = c /\ wr_constructed W v = k;
  so_legacy : Legacy -> legacy_sound (no_check L) S;
  so_free : Implicit -> header_free P;
  so_class_free : Implicit -> Legacy -> class_free (no_check L)
}.
Arguments so_syntax {A P L W S tags Writable Legacy Implicit Form}.
Arguments so_parser {A P L W S tags Writable Legacy Implicit Form}.
Arguments so_accept {A P L W S tags Writable Legacy Implicit Form}.
Arguments so_writer {A P L W S tags Writable Legacy Implicit Form}.
Arguments so_info {A P L W S tags Writable Legacy Implicit Form}.
Arguments so_form {A P L W S tags Writable Legacy Implicit Form}.
Arguments so_legacy {A P L W S tags Writable Legacy Implicit Form}.
Arguments so_free {A P L W S tags Writable Legacy Implicit Form}.
Arguments so_class_free {A P L W S tags Writable Legacy Implicit Form}.

Lemma is_tag_in t n : is_tag t n = true <-> In n [t].
Proof. unfold is_tag. rewrite N.eqb_eq. cbn [In]. intuition congruence. Qed.

Lemma ty_accept {A} (t : ty A) n : ps_accept (parser_of t) n = true <-> In n (ty_tags t).
Proof.
  destruct t as [A b|A t|A m t|A t|A cmp t|A c m t|A c m t];
    try apply is_tag_in.
  destruct b; try apply is_tag_in.
  cbn. unfold oid_accept. rewrite orb_true_iff. unfold TagOid, TagRelativeOid. rewrite !N.eqb_eq. intuition congruence.
Qed.

Lemma ty_info {A} (t : ty A) v c k n : wf t -> sx_ident (syntax_of t) v = (c, k, n) ->
  tb_class (wr_ber (writer_of t) v) = c /\ tb_constructed (wr_ber (writer_of t) v) = k
  /\ tb_class (wr_der (writer_of t) v) = c /\ tb_constructed (wr_der (writer_of t) v) = k.
Proof.
  intros Hwf E. destruct t as [A b|A t|A m t|A t|A cmp t|A c0 m t|A c0 m t];
    try (cbn in E |- *; injection E as <- <- <-; auto; fail).
  - destruct b; cbn in E |- *; injection E as <- <- <-; auto.
  - destruct Hwf as (_ & Ho & Hwf). destruct (types_sound t Hwf) as (_ & _ & _ & _ & I). destruct (I Ho) as (_ & I2 & _).
    cbn [syntax_of implicit_syntax sx_ident] in E.
    cbn [writer_of implicit_writer wr_ber wr_der implicit_tober tb_constructed tb_class].
    destruct (sx_ident (syntax_of t) v) as [[c1 k1] t1] eqn:E1. cbn [fst snd] in E. injection E as <- <- <-.
    rewrite (I2 _ _ _ _ E1). auto.
Qed.

Lemma ty_form {A} (t : ty A) v c k n : wf t -> match t with TSetOf _ => False | _ => True end ->
  sx_ident (syntax_of t) v = (c, k, n) ->
  wr_class (writer_of t) v = c /\ wr_constructed (writer_of t) v = k.
Proof.
  intros Hwf Hf E. destruct t as [A b|A t|A m t|A t|A cmp t|A c0 m t|A c0 m t]; try contradiction;
    try (cbn in E |- *; injection E as <- <- <-; auto; fail).
  - destruct b; cbn in E |- *; injection E as <- <- <-; auto.
  - destruct Hwf as (_ & Ho & Hwf). destruct (types_sound t Hwf) as (_ & _ & _ & _ & I). destruct (I Ho) as (_ & I2 & _).
    cbn [syntax_of implicit_syntax sx_ident] in E. cbn [writer_of implicit_writer wr_class wr_constructed].
    destruct (sx_ident (syntax_of t) v) as [[c1 k1] t1] eqn:E1. cbn [fst snd] in E. injection E as <- <- <-.
    rewrite (I2 _ _ _ _ E1). auto.
Qed.

Lemma ty_sound {A} (t : ty A) (w : bool) : wf t ->
  sound (parser_of t) (legacy_of t) (writer_of t) (syntax_of t) (ty_tags t)
    (w = true /\ True) (has_legacy t) (match t with TExplicit _ _ _ | TImplicit _ _ _ => False | _ => True end)
    (match t with TSetOf _ => False | _ => True end).
Proof.
  intros Hwf. destruct (types_sound t Hwf) as (S & P & W & L & I). constructor; try assumption.
  - apply ty_accept.
  - intros _. exact W.
  - intros _ v cb c k n E _. exact (ty_info t v c k n Hwf E).
  - intros Hf v cb c k n E _. exact (ty_form t v c k n Hwf Hf E).
  - intros HL. apply no_check_sound, L, HL.
  - intros Hi. destruct t; try contradiction; try (apply I; exact Logic.I). apply setof_header_free.
  - intros Hi HL. apply no_check_class_free. destruct t; try contradiction; try (apply I; [exact Logic.I|exact HL]).
    apply setof_class_free.
Qed.

Lemma vec_sound {A} (P : parser A) L W S tags (Wr Lg Im Fm : Prop) :
  sound P L W S tags Wr Lg Im Fm ->
  sound (vec_parser P) (vec_legacy L) (vec_writer W) (list_syntax 16 S) [16] Wr Lg True True.
Proof.
  intros H. pose proof (so_syntax H) as Hs. constructor.
  - apply list_syntax_ok; [lia|exact Hs].
  - apply vec_parser_sound; [apply H|exact Hs].
  - apply is_tag_in.
  - intros Hw. apply vec_writer_sound; [apply H; exact Hw|exact Hs].
  - intros _ v cb c k t E _. injection E as <- <- <-. cbn. auto.
  - intros _ v cb c k t E _. injection E as <- <- <-. cbn. auto.
  - intros Hl. exact (no_check_sound (vec_legacy (no_check L)) _ (vec_legacy_sound _ _ (so_legacy H Hl) Hs)).
  - intros _. apply vec_header_free.
  - intros _ _. apply no_check_class_free, vec_class_free.
Qed.

Lemma alias_sound {A} (P : parser A) L W S tags (Wr Lg Im Fm : Prop) :
  sound P L W S tags Wr Lg Im Fm ->
  sound (alias_parser P) (alias_legacy L) (alias_writer W) S tags Wr Lg Im Fm.
Proof.
  intros H. pose proof (so_syntax H) as Hs. constructor.
  - exact Hs.
  - split; [apply default_regular|]. exact (proj2 (so_parser H)).
  - apply H.
  - intros Hw. destruct (so_writer H Hw) as [H1 H2]. split; [|exact H2].
    intros v cb c k t E C Hn. destruct (H1 v cb c k t E C Hn) as (W1 & W2 & T1 & T2 & T3).
    destruct (so_info H Hw v cb c k t E C) as (I1 & I2 & I3 & I4).
    cbn [alias_writer wr_ber wr_der wr_tag]. cbn [alias_tober tb_tag].
    split; [|split; [|auto]].
    + destruct W1 as (_ & W1). split; [|exact W1]. cbn. congruence.
    + destruct W2 as (_ & W2). split; [|exact W2]. cbn. congruence.
  - intros Hw v cb c k t E C. exact (so_info H Hw v cb c k t E C).
  - intros Hf v cb c k t E C. exact (so_form H Hf v cb c k t E C).
  - intros Hl. destruct (so_legacy H Hl) as (H1 & H2 & H3). split; [reflexivity|]. split; [exact H2|].
    apply legacy_from_object; [exact Hs|]. intros v cb c k t E C Hn enc x Ed (rt & rh & EA).
    destruct (H2 v cb c k t E C Hn) as [Et H4]. cbn [no_check lg_tag] in Et. specialize (H4 rt rh). destruct H4 as [H4 _].
    cbn [no_check alias_legacy lg_from_der]. unfold alias_from_der. rewrite EA. cbn [bind any_header any_data].
    rewrite Et, assert_tag_same. cbn [bind]. cbn [no_check lg_try_from] in H4. rewrite H4. reflexivity.
  - intros Hi. exact (so_free H Hi).
  - intros Hi Hl. exact (so_class_free H Hi Hl).
Qed.

(** *** Components *)

(** The octets start with an object. *)
Definition starts_object (bs : bytes) : Prop :=
  exists c k t idb rest n, ident_shortest c k t idb /\ t < 2 ^ 32 /\ bs = idb ++ rest /\ starts_with_tag t (Definite n) bs.

Lemma encodes_starts {T} (S : syntax T) v enc r :
  syntax_ok S -> encodes S v enc -> blen enc < 2 ^ 24 ->
  exists c k t cb idb rest n, sx_ident S v = (c, k, t) /\ sx_content S v cb /\ blen cb < 2 ^ 24
    /\ ident_shortest c k t idb /\ t < 2 ^ 32
    /\ enc ++ r = idb ++ rest /\ starts_with_tag t (Definite n) (enc ++ r).
Proof.
  intros Hs E Hn.
  destruct (encodes_object S v enc Hs E) as (c & k & t & cb & E1 & E2 & Ht & Hcb & O); [lia|].
  pose proof (object_size _ _ _ _ _ O) as Hsz. destruct O as (idb & lenb & HR & S1 & S2 & ->).
  exists c, k, t, cb, idb, (lenb ++ cb ++ r), (blen cb). rewrite <- !app_assoc.
  split; [exact E1|]. split; [exact E2|]. split; [lia|]. split; [exact S1|]. split; [exact Ht|]. split; [reflexivity|].
  exists c, k, t, idb, lenb, (cb ++ r). split; [exact HR|]. split; [apply N.mod_small; exact Ht|reflexivity].
Qed.

(** A way of reading one component, where [D x e r] tells that [e] followed by [r] stands for [x]. *)
Definition one_sound {X} (ber der lber lder : bytes -> res (bytes * X)) (D : X -> bytes -> bytes -> Prop) (Lg : Prop) : Prop :=
  forall x e r, D x e r -> bytes_ok r -> (r = [] \/ starts_object r) -> blen (e ++ r) < 2 ^ 24 ->
    bytes_ok e /\ (e = [] \/ starts_object (e ++ r))
    /\ ber (e ++ r) = Ok (r, x) /\ der (e ++ r) = Ok (r, x)
    /\ (Lg -> lber (e ++ r) = Ok (r, x) /\ lder (e ++ r) = Ok (r, x)).

Definition d_plain {A} (S : syntax A) (x : A) (e r : bytes) : Prop := encodes S x e.
Definition d_optional {A} (tags : list N) (S : syntax A) (o : option A) (e r : bytes) : Prop :=
  match o with Some x => encodes S x e | None => e = [] /\ ~ begins_with tags r end.
Definition d_default {A} (tags : list N) (d : A) (S : syntax A) (x : A) (e r : bytes) : Prop :=
  encodes S x e \/ (x = d /\ e = [] /\ ~ begins_with tags r).

Lemma plain_one {A} (P : parser A) (L : legacy A) (S : syntax A) (Lg : Prop) :
  syntax_ok S -> parser_sound P S -> (Lg -> legacy_sound (no_check L) S) ->
  one_sound (ps_parse_ber P) (ps_parse_der P) (lg_from_ber L) (lg_from_der L) (d_plain S) Lg.
Proof.
  intros Hs HP HL x e r E Hr _ Hn. rewrite blen_app in Hn.
  destruct (parser_reads P S x e r HP Hs E) as [R1 R2]; [lia|exact Hr|].
  destruct (encodes_starts S x e r Hs E) as (c & k & t & cb & idb & rest & n & _ & _ & _ & S1 & Ht & Eb & St); [lia|].
  split; [eapply encodes_ok; eassumption|]. split; [right; exists c, k, t, idb, rest, n; auto|].
  split; [exact R1|]. split; [exact R2|]. intros Hl.
  apply (legacy_reads (no_check L) S); [exact (HL Hl)|exact Hs|exact E|lia|exact Hr].
Qed.

Lemma forall_readers {X} (l : list (bytes -> res (bytes * X))) i y (a : bytes -> res (bytes * X)) :
  Forall (fun rd => rd i = y) l -> In a l -> a i = y.
Proof. intros H Hin. rewrite Forall_forall in H. exact (H a Hin). Qed.

Lemma option_one {A} (P : parser A) (L : legacy A) (S : syntax A) (tags : list N) (Lg : Prop) :
  syntax_ok S -> parser_sound P S -> (forall n, ps_accept P n = true <-> In n tags) ->
  (Lg -> legacy_sound (no_check L) S) ->
  one_sound (ps_parse_ber (option_parser P)) (ps_parse_der (option_parser P))
            (option_from_ber (ps_accept P) L) (option_from_der (ps_accept P) L) (d_optional tags S) Lg.
Proof.
  intros Hs HP HA HL o e r E Hr Hst Hn. pose proof HP as [Hreg HP2]. destruct o as [x|].
  - cbn [d_optional] in E. destruct (plain_one P L S Lg Hs HP HL x e r E Hr Hst Hn) as (H1 & H2 & R1 & R2 & R3).
    split; [exact H1|]. split; [exact H2|].
    assert (Hi : bytes_ok (e ++ r)) by (apply bytes_ok_app; auto).
    destruct (C28_optional_partial P L (e ++ r) Hreg Hi) as (_ & C28 & _).
    rewrite blen_app in Hn.
    destruct (encodes_starts S x e r Hs E) as (c & k & t & cb & idb & rest & n & E1 & E2 & Hcb & S1 & Ht & Eb & St); [lia|].
    destruct (HP2 _ _ _ _ _ E1 E2 Hcb) as [Acc _].
    destruct (C28 t (Definite n) St Acc) as (F1 & F2 & _ & _ & F5 & F6).
    rewrite R1 in F6. rewrite R2 in F5. cbn [present] in F5, F6.
    split; [apply F6; discriminate|]. split; [exact F5|]. intros Hl. destruct (R3 Hl) as [R4 R5].
    rewrite R4 in F1. rewrite R5 in F2. auto.
  - destruct E as [-> Hnb]. cbn [app]. split; [constructor|]. split; [left; reflexivity|].
    destruct (C28_optional_partial P L r Hreg Hr) as (C1 & _ & C3).
    assert (R : ps_parse_ber (option_parser P) r = Ok (r, None) /\ ps_parse_der (option_parser P) r = Ok (r, None)
                /\ option_from_ber (ps_accept P) L r = Ok (r, None) /\ option_from_der (ps_accept P) L r = Ok (r, None)).
    { destruct Hst as [-> | (c & k & t & idb & rest & n & S1 & Ht & Eb & St)].
      - specialize (C1 eq_refl). repeat split.
      - destruct (C3 t (Definite n) St) as [D1 D2].
        + destruct (ps_accept P t) eqn:Ea; [|reflexivity]. exfalso. apply Hnb. exists c, k, t, idb, rest.
          split; [apply HA; exact Ea|]. auto.
        + specialize (D2 ltac:(discriminate)).
          split; [apply (forall_readers _ _ _ (ps_parse_ber (option_parser P)) D1); cbn; auto|].
          split; [apply (forall_readers _ _ _ (ps_parse_der (option_parser P)) D2); cbn; auto|].
          split; [apply (forall_readers _ _ _ (option_from_ber (ps_accept P) L) D1); cbn; auto|].
          apply (forall_readers _ _ _ (option_from_der (ps_accept P) L) D2); cbn; auto. }
    destruct R as (R1 & R2 & R3 & R4). auto.
Qed.

Lemma default_one {A} ber der lber lder (S : syntax A) tags d Lg :
  one_sound ber der lber lder (d_optional tags S) Lg ->
  one_sound (with_default d ber) (with_default d der) (with_default d lber) (with_default d lder) (d_default tags d S) Lg.
Proof.
  intros H x e r E Hr Hst Hn. unfold with_default. destruct E as [E|(-> & -> & E)].
  - destruct (H (Some x) e r E Hr Hst Hn) as (H1 & H2 & R1 & R2 & R3).
    split; [exact H1|]. split; [exact H2|]. rewrite R1, R2. split; [reflexivity|]. split; [reflexivity|].
    intros Hl. destruct (R3 Hl) as [-> ->]. auto.
  - destruct (H None [] r (conj eq_refl E) Hr Hst Hn) as (H1 & H2 & R1 & R2 & R3).
    split; [exact H1|]. split; [exact H2|]. rewrite R1, R2. split; [reflexivity|]. split; [reflexivity|].
    intros Hl. destruct (R3 Hl) as [-> ->]. auto.
Qed.

(** Tagged components. *)
Definition tag_sound {A} (g : tagging) (P : parser A) (L : legacy A) (S : syntax A) (Lg : Prop) : Prop :=
  syntax_ok S /\ parser_sound (tagged_parser g P) S /\ (Lg -> legacy_sound (no_check (tagged_legacy g L)) S)
  /\ forall v, snd (sx_ident S v) = tg_num g.

Lemma tagged_option_one {A} g (P : parser A) (L : legacy A) (S : syntax A) (Lg : Prop) :
  tag_sound g P L S Lg ->
  one_sound (fld_tagged_optional g P) (fld_tagged_optional_der g P)
            (lfld_tagged_optional g L) (lfld_tagged_optional_der g L) (d_optional [tg_num g] S) Lg.
Proof.
  intros (Hs & HP & HL & Hid) o e r E Hr Hst Hn.
  unfold fld_tagged_optional, fld_tagged_optional_der, lfld_tagged_optional, lfld_tagged_optional_der, tagged_optional.
  destruct o as [x|].
  - cbn [d_optional] in E.
    destruct (plain_one (tagged_parser g P) (tagged_legacy g L) S Lg Hs HP HL x e r E Hr Hst Hn) as (H1 & H2 & R1 & R2 & R3).
    split; [exact H1|]. split; [exact H2|].
    assert (Hi : bytes_ok (e ++ r)) by (apply bytes_ok_app; auto).
    rewrite blen_app in Hn.
    destruct (encodes_starts S x e r Hs E) as (c & k & t & cb & idb & rest & n & E1 & E2 & Hcb & S1 & Ht & Eb & St); [lia|].
    specialize (Hid x). rewrite E1 in Hid. cbn [snd] in Hid. subst t.
    destruct (starts_header _ _ _ Hi St) as (Hne & r2 & h & Eh & Et & El).
    assert (Hz : (blen (e ++ r) =? 0) = false) by (apply N.eqb_neq; intros F; apply Hne, blen_zero, F).
    unfold header_parse_der, header_parse_ber. rewrite Hz, Eh. cbn [bind]. rewrite El. cbn [is_definite bind].
    rewrite Et, N.eqb_refl, R1, R2. split; [reflexivity|]. split; [reflexivity|].
    intros Hl. destruct (R3 Hl) as [-> ->]. auto.
  - destruct E as [-> Hnb]. cbn [app]. split; [constructor|]. split; [left; reflexivity|].
    destruct Hst as [-> | (c & k & t & idb & rest & n & S1 & Ht & Eb & St)]; [auto|].
    destruct (starts_header _ _ _ Hr St) as (Hne & r2 & h & Eh & Et & El).
    assert (Hz : (blen r =? 0) = false) by (apply N.eqb_neq; intros F; apply Hne, blen_zero, F).
    unfold header_parse_der, header_parse_ber. rewrite Hz, Eh. cbn [bind]. rewrite El. cbn [is_definite bind].
    rewrite Et. destruct (N.eqb_spec t (tg_num g)) as [Eq|_]; [|auto].
    exfalso. apply Hnb. exists c, k, t, idb, rest. split; [left; symmetry; exact Eq|]. auto.
Qed.

Lemma fit_syntax_ok {T} (S : syntax T) : syntax_ok S -> syntax_ok (fit_syntax S).
Proof. intros H v cb c k t E [_ C]. exact (H v cb c k t E C). Qed.

Lemma fit_encodes {T} (S : syntax T) v enc : encodes (fit_syntax S) v enc -> encodes S v enc.
Proof.
  intros (c & k & t & cb & idb & lenb & E & [_ C] & R). exists c, k, t, cb, idb, lenb. split; [exact E|]. split; [exact C|exact R].
Qed.

Lemma fit_parser_sound {T} (P : parser T) (S : syntax T) : parser_sound P S -> parser_sound P (fit_syntax S).
Proof. intros [R H]. split; [exact R|]. intros v cb c k t E [_ C]. exact (H v cb c k t E C). Qed.

Lemma fit_legacy_sound {T} (L : legacy T) (S : syntax T) : legacy_sound L S -> legacy_sound L (fit_syntax S).
Proof.
  intros (H1 & H2 & H3). split; [exact H1|]. split.
  - intros v cb c k t E [_ C]. exact (H2 v cb c k t E C).
  - intros v enc x E. apply H3, fit_encodes, E.
Qed.

Lemma tagged_sound {A} (P : parser A) L W S tags (Wr Lg Im Fm : Prop) w g :
  sound P L W S tags Wr Lg Im Fm -> tg_num g < 2 ^ 16 -> (tg_kind g = KImplicit -> Im) ->
  tag_sound g P L (tagged_syntax w g S) Lg.
Proof.
  intros H Hg Hi. pose proof (so_syntax H) as Hs. unfold tag_sound, tagged_syntax, tagged_parser, tagged_legacy.
  destruct (tg_kind g).
  - split; [apply explicit_syntax_ok; [lia|exact Hs]|]. split; [apply explicit_parser_sound; [apply H|exact Hs]|].
    split; [|reflexivity]. intros Hl.
    refine (no_check_sound (explicit_legacy (tg_class g) (tg_num g) (no_check L)) _ (explicit_legacy_sound _ _ _ _ _ (so_legacy H Hl) Hs)).
    lia.
  - assert (Hw : forall b : bool, syntax_ok (if b then fit_syntax S else S)
      /\ parser_sound P (if b then fit_syntax S else S) /\ (Lg -> legacy_sound (no_check L) (if b then fit_syntax S else S))).
    { intros [|]; [|split; [exact Hs|split; [apply H|intros Hl; apply H; exact Hl]]].
      split; [apply fit_syntax_ok, Hs|]. split; [apply fit_parser_sound, H|].
      intros Hl. apply fit_legacy_sound, H, Hl. }
    destruct (Hw w) as (Hs' & HP' & HL').
    split; [apply implicit_syntax_ok; [lia|exact Hs']|].
    split; [apply implicit_parser_sound; [apply H, Hi; reflexivity|exact HP']|]. split; [|reflexivity].
    intros Hl.
    refine (no_check_sound (implicit_legacy (tg_class g) (tg_num g) (no_check L)) _ (implicit_legacy_sound _ _ _ _ _ _ (HL' Hl) Hs')).
    + lia.
    + apply H; [apply Hi; reflexivity|exact Hl].
Qed.

(** Writing one component. *)
Definition part_len (p : part) (l : blength) : Prop := forall acc, pt_len p acc = Ok (length_add acc l).
Definition wrote (p : part) (e : bytes) : Prop := part_len p (Definite (blen e)) /\ pt_write p = Ok (e, blen e).
Definition part_total {A} (S : syntax A) (pd : A -> part) : Prop :=
  forall x, exists l, part_len (pd x) l
    /\ forall n, sx_valid S x -> l = Definite n -> n < 2 ^ 24 -> exists e, encodes S x e /\ blen e = n.
Definition one_writes {A} (pb pd : A -> part) (S : syntax A) : Prop :=
  (forall x e, encodes S x e -> blen e < 2 ^ 24 -> wrote (pb x) e /\ wrote (pd x) e) /\ part_total S pd.

Lemma length_add_assoc a b c : length_add (length_add a b) c = length_add a (length_add b c).
Proof. destruct a, b, c; cbn [length_add]; try reflexivity. f_equal. lia. Qed.

Lemma plain_writes {A} (W : writer A) (S : syntax A) :
  writer_sound W S -> syntax_ok S ->
  one_writes (fun x => plain_part (wr_ber W x)) (fun x => plain_part (wr_der W x)) S.
Proof.
  intros HW Hs. split.
  - intros x e E Hn. destruct (writer_encodes W S x e HW Hs E Hn) as [[W1 W2] [W3 W4]].
    split; (split; [intros acc; cbn [plain_part pt_len]; rewrite ?W2, ?W4; reflexivity|assumption]).
  - intros x. exists (total_len (wr_der W x)). split; [intros acc; reflexivity|].
    intros n Hv L Hn. exact (writer_total W S x n HW Hs Hv L Hn).
Qed.

Lemma encode_explicit_eq c n w :
  encode_tagged_explicit c n w = encode (tp_explicit_tober (header_new c true n (Definite 0)) w).
Proof.
  unfold encode_tagged_explicit, encode. cbn [tp_explicit_tober tb_write_content].
  change (write_header (tp_explicit_tober (header_new c true n (Definite 0)) w))
    with (write_header (tober_header (header_new c true n (total_len w)))).
  destruct (write_header (tober_header (header_new c true n (total_len w)))) as [[a1 n1]| | |]; try reflexivity.
  unfold encode. destruct (write_header w) as [[a2 n2]| | |]; try reflexivity.
  destruct (tb_write_content w) as [[a3 n3]| | |]; try reflexivity.
  cbn [wseq bind]. rewrite app_assoc, N.add_assoc. reflexivity.
Qed.

Lemma explicit_writes_part {A} (W : writer A) (S : syntax A) c n :
  writer_sound W S -> syntax_ok S -> n < 2 ^ 32 ->
  one_writes (fun x => explicit_part c n (wr_ber W x)) (fun x => explicit_part c n (wr_der W x)) (explicit_syntax c n S).
Proof.
  intros HW Hs Ht.
  assert (G : forall w e inner, object c true n inner e -> blen inner < 2 ^ 24 ->
    encode w = Ok (inner, blen inner) -> total_len w = Definite (blen inner) -> wrote (explicit_part c n w) e).
  { intros w e inner O Hn E L. split.
    - intros acc. cbn [explicit_part pt_len]. rewrite L, length_add_assoc. cbn [length_add].
      rewrite (object_total_len _ _ _ _ _ O Ht Hn). reflexivity.
    - cbn [explicit_part pt_write]. rewrite encode_explicit_eq. apply (writes_object _ c true n inner); [|exact O|exact Ht|lia].
      split; [reflexivity|]. split; [exact L|exact E]. }
  split.
  - intros x e E Hn.
    destruct (encodes_object _ x e (explicit_syntax_ok c n S Ht Hs) E) as (c' & k' & t' & inner & E1 & E2 & _ & Hcb & O); [lia|].
    injection E1 as <- <- <-. pose proof (object_size _ _ _ _ _ O) as Hsz. cbn in E2.
    destruct (writer_encodes W S x inner HW Hs E2) as [[W1 W2] [W3 W4]]; [lia|].
    split; (eapply G; [exact O|lia| |]; assumption).
  - intros x. exists (length_add (Definite (unwrap_or0 (ber_header_length n (total_len (wr_der W x))))) (total_len (wr_der W x))).
    split; [intros acc; cbn [explicit_part pt_len]; rewrite length_add_assoc; reflexivity|].
    intros m Hv L Hm. destruct (total_len (wr_der W x)) as [a|] eqn:La; [|discriminate]. cbn [length_add] in L. injection L as <-.
    destruct (writer_total W S x a HW Hs Hv La) as (inner & Ei & Ea); [lia|].
    destruct (object_exists c true n inner Ht) as (e & O); [lia|].
    exists e. split; [exact (encodes_intro (explicit_syntax c n S) x _ _ _ _ _ eq_refl Ei O)|].
    rewrite <- (object_total_len _ _ _ _ _ O Ht) by lia. rewrite Ea. reflexivity.
Qed.

Lemma same_size_header t n m : n < 2 ^ 24 -> m < 2 ^ 32 -> same_size n m ->
  ber_header_length t (Definite m) = ber_header_length t (Definite n).
Proof.
  intros Hn Hm (H1 & H2 & H3). unfold ber_header_length, ber_length_length.
  repeat match goal with |- context [?a <=? ?b] => destruct (N.leb_spec a b) end; try lia; reflexivity.
Qed.

Lemma object_small c k t cb enc : object c k t cb enc -> blen enc <= blen cb + 256.
Proof.
  intros (idb & lenb & [(_ & H2 & _) [H _]] & _ & _ & ->). apply length_octets_len in H2. rewrite !blen_app. lia.
Qed.

Lemma implicit_writes_part {A} (P : parser A) L (W : writer A) (S : syntax A) tags (Wr Lg Im Fm : Prop) c n :
  sound P L W S tags Wr Lg Im Fm -> Wr -> n < 2 ^ 32 ->
  one_writes (fun x => implicit_part c n (wr_ber W x)) (fun x => implicit_part c n (wr_der W x))
             (implicit_syntax c n (fit_syntax S)).
Proof.
  intros H Hw Ht. pose proof (so_syntax H) as Hs. pose proof (so_writer H Hw) as [HW1 HW2].
  (* the lengths computed for a value that fits *)
  assert (G : forall w x c1 k1 t1 cb, writes w c1 k1 t1 cb -> tb_tag w = t1 -> sx_ident S x = (c1, k1, t1) ->
    sx_content S x cb -> fits S x -> blen cb < 2 ^ 24 ->
    ber_header_length n (total_len w) = ber_header_length n (Definite (blen cb))).
  { intros w x c1 k1 t1 cb X Et E C F Hn. destruct (Hs _ _ _ _ _ E C) as [Ht1 Hcb].
    destruct (object_exists c1 k1 t1 cb Ht1) as (enc0 & O); [lia|].
    rewrite (writes_total_len _ _ _ _ _ _ X Et O Ht1 Hn).
    pose proof (object_small _ _ _ _ _ O). apply same_size_header; [exact Hn|lia|].
    apply F; [exact C|]. exact (encodes_intro S x _ _ _ _ _ E C O). }
  assert (G2 : forall w x c1 k1 t1 cb e, writes w c1 k1 t1 cb -> tb_tag w = t1 -> tb_constructed w = k1 ->
    sx_ident S x = (c1, k1, t1) -> sx_content S x cb -> fits S x -> blen cb < 2 ^ 24 -> object c k1 n cb e ->
    wrote (implicit_part c n w) e).
  { intros w x c1 k1 t1 cb e X Et Ek E C F Hn O. split.
    - intros acc. cbn [implicit_part pt_len]. rewrite (G w x c1 k1 t1 cb X Et E C F Hn), length_add_assoc.
      destruct X as (_ & -> & _). cbn [length_add]. rewrite (object_total_len _ _ _ _ _ O Ht Hn). reflexivity.
    - cbn [implicit_part pt_write]. change (encode (implicit_tober c (tb_constructed w) n w) = Ok (e, blen e)).
      rewrite Ek. apply (writes_object _ c k1 n cb); [eapply implicit_writes; exact X|exact O|exact Ht|lia]. }
  split.
  - intros x e E Hn.
    destruct (encodes_object _ x e (implicit_syntax_ok c n _ Ht (fit_syntax_ok S Hs)) E)
      as (c' & k' & t' & cb & E1 & [F C] & _ & Hcb & O); [lia|].
    cbn [implicit_syntax fit_syntax sx_ident] in E1. destruct (sx_ident S x) as [[c1 k1] t1] eqn:E0.
    cbn [fst snd] in E1. injection E1 as <- <- <-. pose proof (object_size _ _ _ _ _ O) as Hsz.
    destruct (HW1 _ _ _ _ _ E0 C) as (X1 & X2 & T1 & T2 & _); [lia|].
    destruct (so_info H Hw _ _ _ _ _ E0 C) as (_ & K1 & _ & K2).
    split; (eapply (G2 _ x); [eassumption|eassumption|eassumption|exact E0|exact C|exact F|lia|exact O]).
  - intros x. exists (length_add (Definite (unwrap_or0 (ber_header_length n (total_len (wr_der W x))))) (tb_content_len (wr_der W x))).
    split; [intros acc; cbn [implicit_part pt_len]; rewrite length_add_assoc; reflexivity|].
    intros m [Hv F] El Hm. destruct (tb_content_len (wr_der W x)) as [a|] eqn:La; [|discriminate].
    cbn [length_add] in El. injection El as <-.
    destruct (HW2 x a Hv La) as (cb & C & Ea); [lia|]. subst a.
    destruct (sx_ident S x) as [[c1 k1] t1] eqn:E0.
    destruct (HW1 _ _ _ _ _ E0 C) as (_ & X2 & _ & T2 & _); [lia|].
    rewrite (G _ x c1 k1 t1 cb X2 T2 E0 C F) by lia.
    destruct (object_exists c k1 n cb Ht) as (e & O); [lia|]. exists e.
    split; [|rewrite <- (object_total_len _ _ _ _ _ O Ht) by lia; reflexivity].
    apply (encodes_intro _ x c k1 n cb); [|split; assumption|exact O].
    cbn [implicit_syntax fit_syntax sx_ident]. rewrite E0. reflexivity.
Qed.

Lemma tagged_writes {A} (P : parser A) L (W : writer A) (S : syntax A) tags (Wr Lg Im Fm : Prop) g :
  sound P L W S tags Wr Lg Im Fm -> Wr -> tg_num g < 2 ^ 16 ->
  one_writes (fun x => tagged_part g (wr_ber W x)) (fun x => tagged_part g (wr_der W x)) (tagged_syntax true g S).
Proof.
  intros H Hw Hg. unfold tagged_part, tagged_syntax. destruct (tg_kind g).
  - apply explicit_writes_part; [apply H; exact Hw|apply H|lia].
  - eapply implicit_writes_part; [exact H|exact Hw|lia].
Qed.

(** *** Structs *)

Definition parts_length (ps : list part) (l : blength) : Prop := forall acc, parts_len ps acc = Ok (length_add acc l).
Definition wrote_all (ps : list part) (bs : bytes) : Prop :=
  parts_length ps (Definite (blen bs)) /\ parts_write ps = Ok (bs, blen bs).

Record fsound {B} (ber der lber lder : fields B) (pb pd : B -> list part) (C : B -> bytes -> Prop) (valid : B -> Prop)
  (Writable Legacy : Prop) : Prop := mk_fsound {
  fo_ok : forall v bs, C v bs -> bytes_ok bs;
  fo_starts : forall v bs, C v bs -> blen bs < 2 ^ 24 -> bs = [] \/ starts_object bs;
  fo_reads : forall v bs, C v bs -> blen bs < 2 ^ 24 -> ber bs = Ok ([], v) /\ der bs = Ok ([], v);
  fo_legacy : Legacy -> forall v bs, C v bs -> blen bs < 2 ^ 24 -> lber bs = Ok ([], v) /\ lder bs = Ok ([], v);
  fo_writes : Writable -> forall v bs, C v bs -> blen bs < 2 ^ 24 -> wrote_all (pb v) bs /\ wrote_all (pd v) bs;
  fo_total : Writable -> forall v, exists l, parts_length (pd v) l
    /\ forall n, valid v -> l = Definite n -> n < 2 ^ 24 -> exists bs, C v bs /\ blen bs = n
}.

Lemma cons_fsound {A B} pber pder plber plder (D : A -> bytes -> bytes -> Prop) (Lg : Prop)
    ber der lber lder pb pd C valid Wf Lf (C' : A * B -> bytes -> Prop) (valid' : A * B -> Prop)
    (pb' pd' : A * B -> list part) (Wr' Lg' : Prop) :
  one_sound pber pder plber plder D Lg -> (forall x e r, D x e r -> bytes_ok e) ->
  fsound ber der lber lder pb pd C valid Wf Lf ->
  (forall x y bs, C' (x, y) bs -> exists e r, D x e r /\ C y r /\ bs = e ++ r) ->
  (Lg' -> Lg /\ Lf) ->
  (Wr' -> Wf /\ exists S qb qd, one_writes qb qd S /\ (forall v, pb' v = qb (fst v) :: pb (snd v))
      /\ (forall v, pd' v = qd (fst v) :: pd (snd v))
      /\ (forall x y bs, C' (x, y) bs <-> component S C (x, y) bs)
      /\ (forall v, valid' v -> sx_valid S (fst v) /\ valid (snd v))) ->
  fsound (field pber ber) (field pder der) (field plber lber) (field plder lder) pb' pd' C' valid' Wr' Lg'.
Proof.
  intros H1 H0 HF HC HLg HWr.
  assert (Q : forall x y bs, C' (x, y) bs -> blen bs < 2 ^ 24 ->
    exists e r, bs = e ++ r /\ C y r /\ blen r < 2 ^ 24 /\ bytes_ok e /\ bytes_ok r
      /\ (bs = [] \/ starts_object bs)
      /\ pber bs = Ok (r, x) /\ pder bs = Ok (r, x) /\ (Lg -> plber bs = Ok (r, x) /\ plder bs = Ok (r, x))).
  { intros x y bs Cb Hn. destruct (HC x y bs Cb) as (e & r & HD & Cr & ->). exists e, r.
    assert (Hr : blen r < 2 ^ 24) by (rewrite blen_app in Hn; lia).
    pose proof (fo_ok _ _ _ _ _ _ _ _ _ _ HF y r Cr) as Hok.
    pose proof (fo_starts _ _ _ _ _ _ _ _ _ _ HF y r Cr Hr) as Hst.
    destruct (H1 x e r HD Hok Hst Hn) as (O1 & O2 & R1 & R2 & R3).
    repeat split; try assumption; try (apply R3; assumption).
    destruct O2 as [-> | O2]; [exact Hst|right; exact O2]. }
  constructor.
  - intros [x y] bs Cb. destruct (HC x y bs Cb) as (e & r & HD & Cr & ->). apply bytes_ok_app.
    split; [exact (H0 x e r HD)|exact (fo_ok _ _ _ _ _ _ _ _ _ _ HF y r Cr)].
  - intros [x y] bs Cb Hn. destruct (Q x y bs Cb Hn) as (e & r & _ & _ & _ & _ & _ & St & _). exact St.
  - intros [x y] bs Cb Hn. destruct (Q x y bs Cb Hn) as (e & r & _ & Cr & Hr & _ & _ & _ & R1 & R2 & _).
    destruct (fo_reads _ _ _ _ _ _ _ _ _ _ HF y r Cr Hr) as [F1 F2].
    unfold field. rewrite R1, R2. cbn [bind]. rewrite F1, F2. auto.
  - intros Hl [x y] bs Cb Hn. destruct (HLg Hl) as [Hl1 Hl2].
    destruct (Q x y bs Cb Hn) as (e & r & _ & Cr & Hr & _ & _ & _ & _ & _ & R3). destruct (R3 Hl1) as [R1 R2].
    destruct (fo_legacy _ _ _ _ _ _ _ _ _ _ HF Hl2 y r Cr Hr) as [F1 F2].
    unfold field. rewrite R1, R2. cbn [bind]. rewrite F1, F2. auto.
  - intros Hw [x y] bs Cb Hn. destruct (HWr Hw) as (Hw1 & S & qb & qd & [HQ _] & Eb & Ed & Ec & _).
    apply Ec in Cb. destruct Cb as (e & r & E & Cr & ->). rewrite blen_app in Hn.
    destruct (HQ x e E) as [[A1 A2] [A3 A4]]; [lia|].
    destruct (fo_writes _ _ _ _ _ _ _ _ _ _ HF Hw1 y r Cr) as [[B1 B2] [B3 B4]]; [lia|].
    rewrite Eb, Ed. cbn [fst snd]. split.
    + split.
      * intros acc. cbn [parts_len]. rewrite A1. cbn [bind]. rewrite B1, length_add_assoc. cbn [length_add].
        rewrite blen_app. reflexivity.
      * cbn [parts_write]. rewrite A2, B2. cbn [wseq bind]. rewrite blen_app. reflexivity.
    + split.
      * intros acc. cbn [parts_len]. rewrite A3. cbn [bind]. rewrite B3, length_add_assoc. cbn [length_add].
        rewrite blen_app. reflexivity.
      * cbn [parts_write]. rewrite A4, B4. cbn [wseq bind]. rewrite blen_app. reflexivity.
  - intros Hw [x y]. destruct (HWr Hw) as (Hw1 & S & qb & qd & [_ HT] & _ & Ed & Ec & Ev).
    destruct (HT x) as (l1 & L1 & T1). destruct (fo_total _ _ _ _ _ _ _ _ _ _ HF Hw1 y) as (l2 & L2 & T2).
    exists (length_add l1 l2). rewrite Ed. cbn [fst snd]. split.
    + intros acc. cbn [parts_len]. rewrite L1. cbn [bind]. rewrite L2, length_add_assoc. reflexivity.
    + intros n Hv El Hn. destruct (Ev (x, y) Hv) as [V1 V2]. cbn [fst snd] in V1, V2.
      destruct l1 as [a|]; [|discriminate]. destruct l2 as [b|]; [|discriminate]. cbn [length_add] in El. injection El as <-.
      destruct (T1 a V1 eq_refl) as (e & E & Ea); [lia|]. destruct (T2 b V2 eq_refl) as (r & Cr & Eb'); [lia|].
      exists (e ++ r). split; [apply Ec; exists e, r; auto|]. rewrite blen_app. lia.
Qed.

Lemma struct_sound {B} (set : bool) (ber der lber lder : fields B) pb pd C valid (Wr Lg : Prop) cs :
  fsound ber der lber lder pb pd C valid Wr Lg ->
  sound (struct_parser (struct_tag set) ber der) (struct_legacy (struct_tag set) lber lder cs)
    (struct_writer (struct_tag set) pb pd) (struct_syntax (if set then 17 else 16) valid C)
    [if set then 17 else 16] Wr Lg True True.
Proof.
  intros H. pose proof (fo_ok _ _ _ _ _ _ _ _ _ _ H) as Hok. assert (Et : struct_tag set = if set then 17 else 16) by (destruct set; reflexivity).
  rewrite Et. set (tag := if set then 17 else 16). assert (Ht : tag < 2 ^ 32) by (unfold tag; destruct set; lia).
  clearbody tag. clear Et.
  assert (Hs : syntax_ok (struct_syntax tag valid C)).
  { intros v cb c k t E Cb. injection E as <- <- <-. split; [exact Ht|exact (Hok v cb Cb)]. }
  assert (ET : forall ps l, parts_length ps l -> struct_tober tag ps = mk_tober EncGeneric Universal true tag l (parts_write ps)).
  { intros ps l L. unfold struct_tober. rewrite L. destruct l; reflexivity. }
  constructor.
  - exact Hs.
  - split; [apply default_regular|]. intros v cb c k t E Cb Hn. injection E as <- <- <-.
    split; [apply N.eqb_refl|]. intros rt rh h. destruct (fo_reads _ _ _ _ _ _ _ _ _ _ H v cb Cb Hn) as [R1 R2].
    cbn [struct_parser default_parser codec_parser ps_ber_content ps_der_content ber_content der_content].
    unfold struct_content. subst h. rewrite assert_constructed_true. cbn [bind]. split; exists []; assumption.
  - apply is_tag_in.
  - intros Hw. split.
    + intros v cb c k t E Cb Hn. injection E as <- <- <-.
      destruct (fo_writes _ _ _ _ _ _ _ _ _ _ H Hw v cb Cb Hn) as [[L1 W1] [L2 W2]].
      cbn [struct_writer wr_ber wr_der wr_tag]. rewrite (ET _ _ L1), (ET _ _ L2).
      split; [split; [reflexivity|split; [reflexivity|exact W1]]|].
      split; [split; [reflexivity|split; [reflexivity|exact W2]]|]. auto.
    + intros v n Hv L Hn. destruct (fo_total _ _ _ _ _ _ _ _ _ _ H Hw v) as (l & Ll & T).
      cbn [struct_writer wr_der] in L. rewrite (ET _ _ Ll) in L. cbn [tb_content_len] in L. exact (T n Hv L Hn).
  - intros Hw v cb c k t E _. injection E as <- <- <-. cbn [struct_writer wr_ber wr_der]. unfold struct_tober.
    destruct (parts_len (pb v) (Definite 0)); destruct (parts_len (pd v) (Definite 0)); auto.
  - intros _ v cb c k t E _. injection E as <- <- <-. auto.
  - intros Hl. split; [reflexivity|]. split.
    + intros v cb c k t E Cb Hn. injection E as <- <- <-. split; [reflexivity|]. intros rt rh h.
      destruct (fo_legacy _ _ _ _ _ _ _ _ _ _ H Hl v cb Cb Hn) as [R1 _].
      cbn [no_check struct_legacy lg_try_from lg_check]. unfold struct_try_from. cbn [any_header any_data]. subst h.
      rewrite assert_tag_same. cbn [bind]. rewrite R1. auto.
    + apply legacy_from_object; [exact Hs|]. intros v cb c k t E Cb Hn enc x Ed (rt & rh & EA). injection E as <- <- <-.
      destruct (fo_legacy _ _ _ _ _ _ _ _ _ _ H Hl v cb Cb Hn) as [_ R2].
      cbn [no_check struct_legacy lg_from_der]. unfold struct_from_der. rewrite EA. cbn [bind any_header any_data].
      rewrite assert_tag_same. cbn [bind]. rewrite R2. reflexivity.
  - intros _ h h' d E _. cbn. unfold struct_content, assert_constructed. rewrite E. auto.
  - intros _ _ h h' d E1 E2 _. split; [|reflexivity]. cbn [no_check struct_legacy lg_try_from]. unfold struct_try_from.
    cbn [any_header any_data]. unfold assert_tag. rewrite E2. reflexivity.
Qed.

(** *** Choices *)

Record vsound {A} (k : option tag_kind) (accept : N -> bool) (ber der : variants A) (W : writer A) (S : syntax A)
  (tags : list N) (Writable Form : Prop) : Prop := mk_vsound {
  vo_syntax : syntax_ok S;
  vo_accept : forall n, accept n = true <-> In n tags;
  vo_reads : NoDup tags -> forall v cb c f t, sx_ident S v = (c, f, t) -> sx_content S v cb -> blen cb < 2 ^ 24 ->
    In t tags /\ (k = Some KExplicit -> f = true) /\
    forall rt rh, let h := mk_header c f t (Definite (blen cb)) rt rh in
      (exists r, ber h cb = Ok (r, v)) /\ (exists r, der h cb = Ok (r, v));
  vo_writer : Writable -> writer_sound W S;
  vo_info : Writable -> forall v cb c f t, sx_ident S v = (c, f, t) -> sx_content S v cb ->
    tb_class (wr_ber W v) = c /\ tb_constructed (wr_ber W v) = f
    /\ tb_class (wr_der W v) = c /\ tb_constructed (wr_der W v) = f;
  vo_form : Form -> forall v cb c f t, sx_ident S v = (c, f, t) -> sx_content S v cb ->
    wr_class W v = c /\ wr_constructed W v = f
}.

Lemma nodup_app {X} (l m : list X) : NoDup (l ++ m) -> NoDup m /\ forall x, In x m -> ~ In x l.
Proof.
  induction l as [|a l IH]; cbn [app]; intros H; [split; [exact H|intros x _ []]|].
  inversion H as [|b u Hn Hd]; subst. destruct (IH Hd) as [H1 H2]. split; [exact H1|].
  intros x Hx [-> | Hl]; [apply Hn, in_or_app; right; exact Hx|exact (H2 x Hx Hl)].
Qed.

Lemma no_variant_sound k : vsound k (fun _ => false) no_variant no_variant no_variant_writer void_syntax [] True True.
Proof.
  constructor.
  - intros [].
  - intros n. split; [discriminate|intros []].
  - intros _ [].
  - intros _. split; intros [].
  - intros _ [].
  - intros _ [].
Qed.

Lemma variant_syntax_ok {A} k n (S : syntax A) : n < 2 ^ 32 -> syntax_ok S -> syntax_ok (variant_syntax k n S).
Proof.
  intros Hn Hs. destruct k as [[|]|]; cbn [variant_syntax];
    [apply explicit_syntax_ok; assumption|apply implicit_syntax_ok; assumption|exact Hs].
Qed.

(** The writer of one variant. *)
Lemma variant_writer_sound {A} (P : parser A) L W S tags (Wr Lg Im Fm : Prop) k n :
  sound P L W S tags Wr Lg Im Fm -> n < 2 ^ 32 -> (k <> Some KExplicit -> Fm) -> Wr ->
  writer_sound (variant_writer k n W) (variant_syntax k n S).
Proof.
  intros H Hn Hf Hw. pose proof (so_syntax H) as Hs. pose proof (so_writer H Hw) as HW. pose proof HW as [HW1 HW2].
  destruct k as [[|]|]; cbn [variant_syntax].
  - split.
    + intros v cb c f t E C Hl. injection E as <- <- <-. cbn in C.
      destruct (writer_encodes W S v cb HW Hs C Hl) as [[W1 W2] [W3 W4]].
      split; [split; [reflexivity|split; [exact W2|exact W1]]|].
      split; [split; [reflexivity|split; [exact W4|exact W3]]|]. auto.
    + intros v m Hv L0 Hm. exact (writer_total W S v m HW Hs Hv L0 Hm).
  - split.
    + intros v cb c f t E C Hl. cbn [implicit_syntax sx_ident sx_content] in E, C.
      destruct (sx_ident S v) as [[c1 k1] t1] eqn:E1. cbn [fst snd] in E. injection E as <- <- <-.
      destruct (HW1 _ _ _ _ _ E1 C Hl) as ((_ & X1) & (_ & X2) & _).
      destruct (so_form H (Hf ltac:(discriminate)) _ _ _ _ _ E1 C) as [_ Ek].
      cbn [variant_writer wr_ber wr_der wr_tag variant_tag]. unfold variant_tober, variant_constructed. rewrite Ek.
      split; [split; [reflexivity|exact X1]|]. split; [split; [reflexivity|exact X2]|]. auto.
    + exact HW2.
  - split; [|exact HW2]. intros v cb c f t E C Hl.
    destruct (HW1 _ _ _ _ _ E C Hl) as ((_ & X1) & (_ & X2) & _ & _ & Et).
    destruct (so_form H (Hf ltac:(discriminate)) _ _ _ _ _ E C) as [Ec Ek].
    cbn [variant_writer wr_ber wr_der wr_tag variant_tag]. unfold variant_tober, variant_constructed, variant_class, variant_tag.
    rewrite Ek, Ec, Et. split; [split; [reflexivity|exact X1]|]. split; [split; [reflexivity|exact X2]|]. auto.
Qed.

Lemma variant_form {A} (P : parser A) L W S tags (Wr Lg Im Fm : Prop) k n :
  sound P L W S tags Wr Lg Im Fm -> (k <> Some KExplicit -> Fm) ->
  forall v cb c f t, sx_ident (variant_syntax k n S) v = (c, f, t) -> sx_content (variant_syntax k n S) v cb ->
    variant_class k W v = c /\ variant_constructed k W v = f.
Proof.
  intros H Hf v cb c f t E C. destruct k as [[|]|]; cbn [variant_syntax variant_class variant_constructed] in *.
  - injection E as <- <- <-. auto.
  - cbn [implicit_syntax sx_ident sx_content] in E, C. destruct (sx_ident S v) as [[c1 k1] t1] eqn:E1.
    cbn [fst snd] in E. injection E as <- <- <-. split; [reflexivity|].
    apply (so_form H (Hf ltac:(discriminate)) _ _ _ _ _ E1 C).
  - apply (so_form H (Hf ltac:(discriminate)) _ _ _ _ _ E C).
Qed.

Lemma cons_vsound {A B} (P : parser A) L W S tags (Wr Lg Im Fm : Prop) k n accept (ber der : variants B) V R rtags (Wv Fv : Prop) :
  sound P L W S tags Wr Lg Im Fm -> n < 2 ^ 32 -> (k = Some KImplicit -> Im) ->
  vsound k accept ber der V R rtags Wv Fv ->
  vsound k (fun x => (match k with Some _ => x =? n | None => ps_accept P x end) || accept x)
    (match k with
     | Some kd => tagged_variant kd n (ps_parse_ber P) (ps_ber_content P) ber
     | None => untagged_variant (ps_accept P) (ps_ber_content P) ber end)
    (match k with
     | Some kd => tagged_variant kd n (ps_parse_der P) (ps_der_content P) der
     | None => untagged_variant (ps_accept P) (ps_der_content P) der end)
    (sum_writer (variant_writer k n W) V) (sum_syntax (variant_syntax k n S) R)
    ((match k with Some _ => [n] | None => tags end) ++ rtags)
    ((Wr /\ (k <> Some KExplicit -> Fm)) /\ Wv) ((k <> Some KExplicit -> Fm) /\ Fv).
Proof.
  intros H Hn Hi HV. pose proof (so_syntax H) as Hs. pose proof (so_parser H) as HP. constructor.
  - intros [x|y] cb c f t E C.
    + exact (variant_syntax_ok k n S Hn Hs x cb c f t E C).
    + exact (vo_syntax _ _ _ _ _ _ _ _ _ HV y cb c f t E C).
  - intros x. rewrite orb_true_iff, in_app_iff, (vo_accept _ _ _ _ _ _ _ _ _ HV).
    destruct k as [kd|]; [rewrite N.eqb_eq; cbn [In]; intuition congruence|]. rewrite (so_accept H). tauto.
  - intros Hd [x|y] cb c f t E C Hl; destruct (nodup_app _ _ Hd) as [Hd1 Hd2].
    + cbn [sum_syntax sx_ident sx_content] in E, C. destruct k as [[|]|]; cbn [variant_syntax] in E, C.
      * injection E as <- <- <-. cbn in C. split; [apply in_or_app; left; left; reflexivity|]. split; [reflexivity|].
        intros rt rh h. destruct (parser_reads P S x cb [] HP Hs C Hl) as [R1 R2]; [constructor|]. rewrite app_nil_r in *.
        unfold tagged_variant. cbn [h h_tag]. rewrite N.eqb_refl, R1, R2. split; exists []; reflexivity.
      * cbn [implicit_syntax sx_ident sx_content] in E, C. destruct (sx_ident S x) as [[c1 k1] t1] eqn:E1.
        cbn [fst snd] in E. injection E as <- <- <-. split; [apply in_or_app; left; left; reflexivity|].
        split; [discriminate|]. intros rt rh h. destruct (proj2 HP _ _ _ _ _ E1 C Hl) as [_ C1].
        destruct (C1 rt rh) as [[r R1] [r' R2]].
        destruct (so_free H (Hi eq_refl) h (mk_header c1 k1 t1 (Definite (blen cb)) rt rh) cb eq_refl eq_refl) as [F1 F2].
        unfold tagged_variant. change (h_tag h) with n. rewrite N.eqb_refl, F1, F2, R1, R2.
        split; [exists r|exists r']; reflexivity.
      * destruct (proj2 HP _ _ _ _ _ E C Hl) as [Acc C1].
        split; [apply in_or_app; left; apply H; exact Acc|]. split; [discriminate|]. intros rt rh h.
        destruct (C1 rt rh) as [[r R1] [r' R2]]. unfold untagged_variant. change (h_tag h) with t. rewrite Acc.
        fold h in R1, R2. rewrite R1, R2. split; [exists r|exists r']; reflexivity.
    + cbn [sum_syntax sx_ident sx_content] in E, C.
      destruct (vo_reads _ _ _ _ _ _ _ _ _ HV Hd1 y cb c f t E C Hl) as (Ht & Hf & C1).
      split; [apply in_or_app; right; exact Ht|]. split; [exact Hf|]. intros rt rh h.
      destruct (C1 rt rh) as [[r R1] [r' R2]]. fold h in R1, R2. specialize (Hd2 t Ht).
      destruct k as [kd|].
      * unfold tagged_variant. change (h_tag h) with t. destruct (N.eqb_spec t n) as [->|_]; [exfalso; apply Hd2; left; reflexivity|].
        rewrite R1, R2. split; [exists r|exists r']; reflexivity.
      * unfold untagged_variant. change (h_tag h) with t.
        destruct (ps_accept P t) eqn:Acc; [exfalso; apply Hd2, H; exact Acc|].
        rewrite R1, R2. split; [exists r|exists r']; reflexivity.
  - intros [[Hw Hf] Hv].
    destruct (variant_writer_sound P L W S tags Wr Lg Im Fm k n H Hn Hf Hw) as [V1 V2].
    destruct (vo_writer _ _ _ _ _ _ _ _ _ HV Hv) as [V3 V4]. split.
    + intros [x|y]; [exact (V1 x)|exact (V3 y)].
    + intros [x|y]; [exact (V2 x)|exact (V4 y)].
  - intros [[Hw Hf] Hv] [x|y] cb c f t E C.
    + destruct (variant_form P L W S tags Wr Lg Im Fm k n H Hf x cb c f t E C) as [F1 F2]. cbn. auto.
    + exact (vo_info _ _ _ _ _ _ _ _ _ HV Hv y cb c f t E C).
  - intros [Hf Hv] [x|y] cb c f t E C.
    + exact (variant_form P L W S tags Wr Lg Im Fm k n H Hf x cb c f t E C).
    + exact (vo_form _ _ _ _ _ _ _ _ _ HV Hv y cb c f t E C).
Qed.

Lemma choice_sound {A} k accept (ber der : variants A) W S tags (Wv Fv : Prop) :
  vsound k accept ber der W S tags Wv Fv -> NoDup tags ->
  sound (choice_parser k accept ber der) no_legacy W S tags Wv False False Fv.
Proof.
  intros HV Hd. constructor; try tauto; try (apply HV).
  split; [apply default_regular|]. intros v cb c f t E C Hl.
  destruct (vo_reads _ _ _ _ _ _ _ _ _ HV Hd v cb c f t E C Hl) as (Ht & Hf & C1).
  split; [apply HV; exact Ht|]. intros rt rh h. destruct (C1 rt rh) as [C2 C3].
  cbn [choice_parser default_parser codec_parser ps_ber_content ps_der_content ber_content der_content].
  unfold choice_content. destruct k as [[|]|]; [|auto|auto].
  subst h. rewrite (Hf eq_refl) in *. rewrite assert_constructed_true. cbn [bind]. auto.
Qed.

(** *** Enumerations *)

Lemma denum_sound ds : Forall (fun d => d < 2 ^ 32) ds ->
  sound (denum_parser ds) no_legacy denum_writer (enumerated_syntax ds) [10] True False True True.
Proof.
  intros Hds. rewrite Forall_forall in Hds. pose proof enum_base as B.
  assert (HV : forall d cb, sx_content (enumerated_syntax ds) d cb -> sx_content enum_syntax (Z.of_N d) cb).
  { intros d cb [Hin Hc]. specialize (Hds d Hin). split; [|exact Hc]. unfold in_unsigned. cbn. lia. }
  assert (Hs : syntax_ok (enumerated_syntax ds)).
  { intros v cb c k t E C. injection E as <- <- <-. split; [lia|]. apply (bs_bytes _ _ _ _ _ B _ _ (HV _ _ C)). }
  assert (HF : forall v d, existsb (N.eqb d) v = true <-> In d v).
  { intros v d. rewrite existsb_exists. split; [intros (x & Hx & E); apply N.eqb_eq in E; subst; exact Hx|].
    intros Hin. exists d. split; [exact Hin|apply N.eqb_refl]. }
  constructor; try (intros []; fail); try (intros _ []; fail).
  - exact Hs.
  - split; [apply default_regular|]. intros d cb c k t E C Hl. injection E as <- <- <-. split; [reflexivity|]. intros rt rh h.
    destruct (bs_reads _ _ _ _ _ B _ _ (HV _ _ C) Hl) as [[_ R1] [_ R2]].
    destruct (R1 rt rh) as [[r1 R1'] _]. destruct (R2 rt rh) as [[r2 R2'] _].
    cbn [denum_parser default_parser codec_parser ps_ber_content ps_der_content ber_content der_content].
    fold h in R1', R2'. unfold denum_content. change (assert_primitive h) with (Ok tt). cbn [bind].
    destruct C as [Hin _]. apply HF in Hin.
    rewrite R1', R2'. cbn [bind]. rewrite !N2Z.id, Hin. split; [exists r1|exists r2]; reflexivity.
  - apply is_tag_in.
  - intros _. split.
    + intros d cb c k t E C Hl. injection E as <- <- <-. destruct (bs_writes _ _ _ _ _ B _ _ (HV _ _ C)) as (_ & X).
      split; [split; [reflexivity|exact X]|]. split; [split; [reflexivity|exact X]|]. auto.
    + intros d n Hin L _.
      assert (Hv : sx_valid enum_syntax (Z.of_N d)) by (specialize (Hds d Hin); unfold enum_syntax, universal_syntax, in_unsigned; cbn; lia).
      destruct (bs_total _ _ _ _ _ B _ Hv) as (cb & [_ C] & E). exists cb. split; [split; [exact Hin|exact C]|].
      cbn [denum_writer same_writer wr_der denum_tober tb_content_len] in L. rewrite E in L. injection L as <-. reflexivity.
  - intros _ v cb c k t E _. injection E as <- <- <-. auto.
  - intros _ v cb c k t E _. injection E as <- <- <-. auto.
  - intros _ h h' d E1 E2. destruct (bs_header_free _ _ _ _ _ B h h' d E1 E2) as [F1 F2].
    cbn [codec_parser ps_ber_content ps_der_content] in F1, F2.
    cbn [denum_parser default_parser codec_parser ps_ber_content ps_der_content ber_content der_content].
    unfold denum_content, assert_primitive. rewrite E1.
    split; [rewrite F1|rewrite F2]; reflexivity.
Qed.

(** *** All types *)

Lemma sound_weaken {A} (P : parser A) L W S tags (Wr Lg Im Fm Wr' Lg' Im' Fm' : Prop) :
  sound P L W S tags Wr Lg Im Fm -> (Wr' -> Wr) -> (Lg' -> Lg) -> (Im' -> Im) -> (Fm' -> Fm) ->
  sound P L W S tags Wr' Lg' Im' Fm'.
Proof.
  intros [H1 H2 H3 H4 H5 H6 H7 H8 H9] A1 A2 A3 A4.
  exact (mk_sound _ _ _ _ _ _ _ _ _ _ H1 H2 H3 (fun w => H4 (A1 w)) (fun w => H5 (A1 w)) (fun f => H6 (A4 f))
    (fun l => H7 (A2 l)) (fun i => H8 (A3 i)) (fun i l => H9 (A3 i) (A2 l))).
Qed.

Lemma fsound_weaken {B} (ber der lber lder : fields B) pb pd C valid (Wr Lg Wr' Lg' : Prop) :
  fsound ber der lber lder pb pd C valid Wr Lg -> (Wr' -> Wr) -> (Lg' -> Lg) ->
  fsound ber der lber lder pb pd C valid Wr' Lg'.
Proof.
  intros [H1 H2 H3 H4 H5 H6] A1 A2.
  exact (mk_fsound _ _ _ _ _ _ _ _ _ _ _ H1 H2 H3 (fun l => H4 (A2 l)) (fun w => H5 (A1 w)) (fun w => H6 (A1 w))).
Qed.

Lemma vsound_weaken {A} k accept (ber der : variants A) W S tags (Wr Fm Wr' Fm' : Prop) :
  vsound k accept ber der W S tags Wr Fm -> (Wr' -> Wr) -> (Fm' -> Fm) ->
  vsound k accept ber der W S tags Wr' Fm'.
Proof.
  intros [H1 H2 H3 H4 H5 H6] A1 A2.
  exact (mk_vsound _ _ _ _ _ _ _ _ _ _ H1 H2 H3 (fun w => H4 (A1 w)) (fun w => H5 (A1 w)) (fun f => H6 (A2 f))).
Qed.

Lemma no_field_fsound w : fsound no_field no_field no_field no_field (fun _ => []) (fun _ => []) no_component (fun _ => True) w True.
Proof.
  constructor.
  - intros v bs ->. constructor.
  - intros v bs -> _. left. reflexivity.
  - intros [] bs -> _. auto.
  - intros _ [] bs -> _. auto.
  - assert (W : wrote_all [] []) by (split; [intros [n|]; cbn; rewrite ?N.add_0_r; reflexivity|reflexivity]).
    intros _ v bs -> _. auto.
  - intros _ v. exists (Definite 0). split; [intros [n|]; cbn; rewrite ?N.add_0_r; reflexivity|].
    intros n _ E _. injection E as <-. exists []. split; reflexivity.
Qed.

Lemma optional_d {A B} tags (S : syntax A) (C : B -> bytes -> Prop) x y bs :
  optional_component tags S C (x, y) bs -> exists e r, d_optional tags S x e r /\ C y r /\ bs = e ++ r.
Proof.
  destruct x as [x|]; cbn [optional_component d_optional]; [auto|]. intros [H1 H2]. exists [], bs. auto.
Qed.

Lemma default_d {A B} (w : bool) tags (d : A) (S : syntax A) (C : B -> bytes -> Prop) x y bs :
  present_or_default w tags d S C (x, y) bs -> exists e r, d_default tags d S x e r /\ C y r /\ bs = e ++ r.
Proof.
  assert (P : component S C (x, y) bs -> exists e r, d_default tags d S x e r /\ C y r /\ bs = e ++ r).
  { intros (e & r & E & Cr & ->). exists e, r. split; [left; exact E|]. auto. }
  unfold present_or_default. destruct w; [exact P|]. intros [H|(-> & H1 & H2)]; [exact (P H)|].
  exists [], bs. split; [right; auto|]. auto.
Qed.

Lemma d_optional_ok {A} tags (S : syntax A) x e r : syntax_ok S -> d_optional tags S x e r -> bytes_ok e.
Proof. intros Hs. destruct x as [x|]; cbn [d_optional]; [apply encodes_ok, Hs|intros [-> _]; constructor]. Qed.
Lemma d_default_ok {A} tags d (S : syntax A) x e r : syntax_ok S -> d_default tags d S x e r -> bytes_ok e.
Proof. intros Hs [E|(_ & -> & _)]; [exact (encodes_ok S x e Hs E)|constructor]. Qed.

Theorem derive_sound :
  (forall A (t : dty A), dwf t -> forall w,
     sound (dparser_of t) (dlegacy_of t) (dwriter_of t) (dsyntax_of w t) (dtags t)
           (w = true /\ writable t) (has_dlegacy t) (dimplicit_ok t) (form_ok t))
  /\ (forall A (fs : dfields A), fields_wf fs -> forall w,
     fsound (ber_of fs) (der_of fs) (lber_of fs) (lder_of fs) (ber_parts fs) (der_parts fs)
            (components_of w fs) (valid_fields w fs) (w = true /\ fields_writable fs) (fields_legacy fs))
  /\ (forall A (vs : dvariants A), forall k, variants_wf k vs -> forall w,
     vsound k (accept_of k vs) (ber_variants k vs) (der_variants k vs) (variants_writer k vs)
            (variants_syntax w k vs) (vtags k vs) (w = true /\ forms_ok k vs /\ variants_writable vs) (forms_ok k vs)).
Proof.
  apply dty_mutind.
  - intros A t Hwf w. exact (ty_sound t w Hwf).
  - intros A t IH Hwf w. exact (vec_sound _ _ _ _ _ _ _ _ _ (IH Hwf w)).
  - intros A set fs IH Hwf w. exact (struct_sound set _ _ _ _ _ _ _ _ _ _ _ (IH Hwf w)).
  - intros A k vs IH [Hd Hwf] w. exact (choice_sound k _ _ _ _ _ _ _ _ (IH k Hwf w) Hd).
  - intros ds Hwf w. apply (sound_weaken _ _ _ _ _ _ _ _ _ _ _ _ _ (denum_sound ds Hwf)); tauto.
  - intros A t IH Hwf w. exact (alias_sound _ _ _ _ _ _ _ _ _ (IH Hwf w)).
  - intros _ w. apply (fsound_weaken _ _ _ _ _ _ _ _ _ _ _ _ (no_field_fsound True)); tauto.
  - (* plain *)
    intros A B t IHt fs IHfs [Hwt Hwf] w. specialize (IHt Hwt w). specialize (IHfs Hwf w).
    eapply (cons_fsound _ _ _ _ (d_plain (dsyntax_of w t)) (has_dlegacy t)).
    + exact (plain_one _ _ _ _ (so_syntax IHt) (so_parser IHt) (so_legacy IHt)).
    + intros x e r E. exact (encodes_ok _ _ _ (so_syntax IHt) E).
    + exact IHfs.
    + intros x y bs H. exact H.
    + cbn. tauto.
    + cbn [fields_writable]. intros (Hw & H1 & H2). split; [tauto|]. exists (dsyntax_of w t).
      exists (fun x => plain_part (wr_ber (dwriter_of t) x)), (fun x => plain_part (wr_der (dwriter_of t) x)).
      split; [apply plain_writes; [apply (so_writer IHt); tauto|apply IHt]|].
      split; [reflexivity|]. split; [reflexivity|]. split; [reflexivity|]. intros v Hv. exact Hv.
  - (* option *)
    intros A B t IHt fs IHfs [Hwt Hwf] w. specialize (IHt Hwt w). specialize (IHfs Hwf w).
    eapply (cons_fsound _ _ _ _ (d_optional (dtags t) (dsyntax_of w t)) (has_dlegacy t)).
    + exact (option_one _ _ _ _ _ (so_syntax IHt) (so_parser IHt) (so_accept IHt) (so_legacy IHt)).
    + intros x e r. apply d_optional_ok, IHt.
    + exact IHfs.
    + apply optional_d.
    + cbn. tauto.
    + cbn [fields_writable]. tauto.
  - (* default *)
    intros A B d t IHt fs IHfs [Hwt Hwf] w. specialize (IHt Hwt w). specialize (IHfs Hwf w).
    eapply (cons_fsound _ _ _ _ (d_default (dtags t) d (dsyntax_of w t)) (has_dlegacy t)).
    + apply default_one. exact (option_one _ _ _ _ _ (so_syntax IHt) (so_parser IHt) (so_accept IHt) (so_legacy IHt)).
    + intros x e r. apply d_default_ok, IHt.
    + exact IHfs.
    + apply default_d.
    + cbn. tauto.
    + cbn [fields_writable]. intros (-> & H1 & H2). split; [tauto|]. exists (dsyntax_of true t).
      exists (fun x => plain_part (wr_ber (dwriter_of t) x)), (fun x => plain_part (wr_der (dwriter_of t) x)).
      split; [apply plain_writes; [apply (so_writer IHt); tauto|apply IHt]|].
      split; [reflexivity|]. split; [reflexivity|]. split; [reflexivity|]. intros v Hv. exact Hv.
  - (* tagged *)
    intros A B g t IHt fs IHfs ([Hg Hgi] & Hwt & Hwf) w. specialize (IHt Hwt w). specialize (IHfs Hwf w).
    assert (HT : tag_sound g (dparser_of t) (dlegacy_of t) (tagged_syntax w g (dsyntax_of w t)) (has_dlegacy t)).
    { apply (tagged_sound _ _ _ _ _ _ _ _ _ w g IHt Hg). intros E. rewrite E in Hgi. exact Hgi. }
    destruct HT as (T1 & T2 & T3 & T4).
    eapply (cons_fsound _ _ _ _ (d_plain (tagged_syntax w g (dsyntax_of w t))) (has_dlegacy t)).
    + exact (plain_one _ _ _ _ T1 T2 T3).
    + intros x e r E. exact (encodes_ok _ _ _ T1 E).
    + exact IHfs.
    + intros x y bs H. exact H.
    + cbn. tauto.
    + cbn [fields_writable]. intros (-> & H1 & H2). split; [tauto|]. exists (tagged_syntax true g (dsyntax_of true t)).
      exists (fun x => tagged_part g (wr_ber (dwriter_of t) x)), (fun x => tagged_part g (wr_der (dwriter_of t) x)).
      split; [eapply tagged_writes; [exact IHt|tauto|exact Hg]|].
      split; [reflexivity|]. split; [reflexivity|]. split; [reflexivity|]. intros v Hv. exact Hv.
  - (* tagged option *)
    intros A B g t IHt fs IHfs ([Hg Hgi] & Hwt & Hwf) w. specialize (IHt Hwt w). specialize (IHfs Hwf w).
    assert (HT : tag_sound g (dparser_of t) (dlegacy_of t) (tagged_syntax w g (dsyntax_of w t)) (has_dlegacy t)).
    { apply (tagged_sound _ _ _ _ _ _ _ _ _ w g IHt Hg). intros E. rewrite E in Hgi. exact Hgi. }
    eapply (cons_fsound _ _ _ _ (d_optional [tg_num g] (tagged_syntax w g (dsyntax_of w t))) (has_dlegacy t)).
    + exact (tagged_option_one _ _ _ _ _ HT).
    + intros x e r. apply d_optional_ok, HT.
    + exact IHfs.
    + apply optional_d.
    + cbn. tauto.
    + cbn [fields_writable]. tauto.
  - (* tagged default *)
    intros A B g d t IHt fs IHfs ([Hg Hgi] & Hwt & Hwf) w. specialize (IHt Hwt w). specialize (IHfs Hwf w).
    assert (HT : tag_sound g (dparser_of t) (dlegacy_of t) (tagged_syntax w g (dsyntax_of w t)) (has_dlegacy t)).
    { apply (tagged_sound _ _ _ _ _ _ _ _ _ w g IHt Hg). intros E. rewrite E in Hgi. exact Hgi. }
    eapply (cons_fsound _ _ _ _ (d_default [tg_num g] d (tagged_syntax w g (dsyntax_of w t))) (has_dlegacy t)).
    + apply default_one. exact (tagged_option_one _ _ _ _ _ HT).
    + intros x e r. apply d_default_ok, HT.
    + exact IHfs.
    + apply default_d.
    + cbn. tauto.
    + cbn [fields_writable]. intros (-> & H1 & H2). split; [tauto|]. exists (tagged_syntax true g (dsyntax_of true t)).
      exists (fun x => tagged_part g (wr_ber (dwriter_of t) x)), (fun x => tagged_part g (wr_der (dwriter_of t) x)).
      split; [eapply tagged_writes; [exact IHt|tauto|exact Hg]|].
      split; [reflexivity|]. split; [reflexivity|]. split; [reflexivity|]. intros v Hv. exact Hv.
  - intros k _ w. apply (vsound_weaken _ _ _ _ _ _ _ _ _ _ _ (no_variant_sound k)); tauto.
  - intros A B n t IHt vs IHvs k (Hn & Hi & Hwt & Hwf) w. specialize (IHt Hwt w). specialize (IHvs k Hwf w).
    eapply vsound_weaken.
    + refine (cons_vsound _ _ _ _ _ _ _ _ _ k n _ _ _ _ _ _ _ _ IHt Hn _ IHvs). intros ->. exact Hi.
    + cbn [forms_ok variants_writable]. intros (-> & [F1 F2] & W1 & W2). split; [|tauto]. split; [tauto|].
      intros Hk. destruct k as [[|]|]; [congruence|exact F1|exact F1].
    + cbn [forms_ok]. intros [F1 F2]. split; [|exact F2].
      intros Hk. destruct k as [[|]|]; [congruence|exact F1|exact F1].
Qed.
