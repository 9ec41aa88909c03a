(** C80, C82-C85: conversions of [Any] by method, the class of an object, contents after a header, sums of
    lengths, static copies of headers. *)
From Verif Require Import Base MHeader MEncode SHeader PArith PHeader PEncode MBer SBer PBer PIter PCodec PropBer.
From Verif Require Import MInt SInt MSeg SSeg MOid MText SText PropText.
From Verif Require Import MReal MPdv.
From Verif Require Import MTime STime MCont SCont PCont SBase PBase PTypes PropTag PropItems PropAgree MAny.

(** ** C80: the methods [Any::as_xxx] and [TryFrom<Any>] *)

(** The same header with another class and tag number. *)
Definition retag (c : class) (n : N) (h : header) : header :=
  mk_header c (h_constructed h) n (h_length h) (h_raw_tag h) (h_raw_header h).

(** Types with methods in [Any]: the base types, REAL, EMBEDDED PDV and end-of-contents. *)
Inductive has_method : forall T, codec T -> N -> Prop :=
| method_base A (b : base A) : has_method A (base_codec b) (base_tag b)
| method_real : has_method _ real_codec 9
| method_pdv : has_method _ pdv_codec 11
| method_eoc : has_method _ eoc_codec 0.
Arguments has_method {T}.

Lemma raw_as_default tag a : try_from_any (raw_codec tag) a = default_try_from (is_tag tag) raw_content a.
Proof.
  cbn. unfold raw_try_from, default_try_from, raw_content, assert_tag, is_tag, assert_constructed.
  destruct (_ =? _); cbn [bind]; [|reflexivity]. destruct (h_constructed _); cbn [bind close]; [|reflexivity].
  rewrite take_all. reflexivity.
Qed.

Lemma method_default {T} (p : codec T) n a : has_method p n ->
  try_from_any p a = default_try_from (accept_tag p) (ber_content p) a.
Proof. intros H. destruct H; [|reflexivity..]. destruct b; try reflexivity; apply raw_as_default. Qed.

Lemma method_free {T} (p : codec T) n : has_method p n -> accept_tag p n = true /\
  forall h h' d, h_constructed h = h_constructed h' -> h_length h = h_length h' -> ber_content p h d = ber_content p h' d.
Proof.
  intros H. destruct H; (split; [try reflexivity; apply base_accepts|]); intros h h' d K L.
  - exact (proj1 (base_header_free b h h' d K L)).
  - cbn. unfold real_content, assert_primitive, decode_real. rewrite K, L. reflexivity.
  - reflexivity.
  - cbn. unfold eoc_content. rewrite L. reflexivity.
Qed.

(** [as_xxx] looks neither at the class nor at the tag number: it answers what [TryFrom] answers for the object
    whose identifier is replaced by that of the type. *)
Theorem C80_methods {T} (p : codec T) (n : N) (c : class) (a : any) :
  has_method p n ->
  any_as p a = try_from_any p (mk_any (retag c n (any_header a)) (any_data a)).
Proof.
  intros H. rewrite (method_default p n) by exact H. destruct (method_free p n H) as [A F].
  unfold default_try_from, any_as. cbn [any_header any_data retag h_tag]. rewrite A.
  rewrite (F (any_header a) (retag c n (any_header a))) by reflexivity. reflexivity.
Qed.
Print Assumptions C80_methods.

(** So the two agree where the tag number is one of the type, and only there can [TryFrom] succeed. *)
Theorem C80_agree_partial {T} (p : codec T) (n : N) (a : any) :
  has_method p n ->
  try_from_any p a = if accept_tag p (h_tag (any_header a)) then any_as p a else Err EUnexpectedTag.
Proof. intros H. rewrite (method_default p n) by exact H. reflexivity. Qed.
Print Assumptions C80_agree_partial.

(** An OCTET STRING is taken for an INTEGER, a NULL for an empty UTF8String, a SET for a SEQUENCE. *)
Theorem C80_tag_refuted :
  (exists a, parse_der_any [4; 1; 5] = Ok ([], a) /\ try_from_any (base_codec (BUint 1)) a = Err EUnexpectedTag
             /\ any_as (base_codec (BUint 1)) a = Ok 5%Z)
  /\ (exists a, parse_der_any [5; 0] = Ok ([], a) /\ try_from_any (base_codec BStr) a = Err EUnexpectedTag
             /\ any_as (base_codec BStr) a = Ok [])
  /\ (exists a, parse_der_any [0x31; 0] = Ok ([], a) /\ try_from_any (base_codec BSequence) a = Err EUnexpectedTag
             /\ any_as (base_codec BSequence) a = Ok []).
Proof. repeat split; eexists; vm_compute; repeat split. Qed.
Print Assumptions C80_tag_refuted.

(** [relative_oid] does look at the number; it reads what [from_ber_relative] reads, and more: any form. *)
Theorem C80_relative (i rem : bytes) (a : any) (o : oid) :
  parse_ber_any i = Ok (rem, a) ->
  (any_relative_oid a = Ok o <-> h_tag (any_header a) = 13 /\ o = mk_oid (any_data a) true)
  /\ (oid_from_ber_relative i = Ok (rem, o) <-> any_relative_oid a = Ok o /\ h_constructed (any_header a) = false).
Proof.
  intros E. unfold any_relative_oid, oid_from_ber_relative. rewrite E. cbn [bind].
  assert (T : assert_tag (any_header a) TagRelativeOid = Ok tt <-> h_tag (any_header a) = 13) by apply assert_tag_ok.
  destruct (assert_tag (any_header a) TagRelativeOid) as [[]| | |]; cbn [bind];
    unfold assert_primitive; destruct (h_constructed (any_header a)); cbn [bind];
    (split; split; try discriminate; try (intros [H1 H2]; try discriminate; apply T in H1; discriminate)).
  all: try (intros H; injection H as <-; split; [try apply T; reflexivity|reflexivity]).
  all: intros [H1 H2]; try discriminate; try (subst; reflexivity); injection H1 as <-; reflexivity.
Qed.
Print Assumptions C80_relative.

Example C80_case :
  has_method (base_codec (BUint 1)) 2 /\ has_method real_codec 9
  /\ (exists a, parse_ber_any [2; 1; 5] = Ok ([], a) /\ any_as (base_codec (BUint 1)) a = Ok 5%Z)
  /\ (exists a, parse_ber_any [0x2d; 2; 4; 0] = Ok ([], a) /\ any_relative_oid a = Ok (mk_oid [4; 0] true)
        /\ oid_from_ber_relative [0x2d; 2; 4; 0] = Err EConstructUnexpected).
Proof. split; [apply (method_base _ (BUint 1))|]. split; [constructor|]. split; eexists; vm_compute; repeat split. Qed.

(** ** C82: the class of an object *)

Definition untagged {A} (t : ty A) : Prop :=
  match t with TExplicit _ _ _ | TImplicit _ _ _ => False | _ => True end.

Lemma untagged_header_free {A} (t : ty A) : untagged t -> header_free (parser_of t).
Proof.
  destruct t; cbn [untagged parser_of]; intros H; try contradiction.
  - apply base_header_free.
  - apply vec_header_free.
  - apply array_header_free.
  - apply setof_header_free.
  - apply btreeset_header_free.
Qed.

Lemma base_class_free {A} (b : base A) : class_free (codec_legacy (base_tag b) (base_codec b)).
Proof.
  destruct b as [| |w|w| | | | | | |k| | | | | | | |];
    try (match goal with |- class_free (codec_legacy _ (base_codec ?b)) =>
           exact (bs_class_free _ _ _ _ _ (base_types_sound b I)) end).
  - intros h h' d K T L. cbn. unfold default_try_from, int_ber_content, check_der_int, assert_primitive. cbn. rewrite K, T, ?L. auto.
  - intros h h' d K T L. cbn. unfold default_try_from, uint_ber_content, check_der_int, assert_primitive. cbn. rewrite K, T, ?L. auto.
Qed.

Lemma bind_map {X Y Z} (m : res X) (f : X -> Y) (g : Y -> Z) :
  (let* v := m in Ok (g (f v))) = let* x := (let* v := m in Ok (f v)) in Ok (g x).
Proof. destruct m; reflexivity. Qed.

(** Nothing but an explicit or implicit tag looks at the class: two inputs that differ in the class bits of the
    first object get the same answer from all readers, errors included. *)
Theorem C82_class_ignored {A} (t : ty A) c c' k u l idb idb' lenb r :
  untagged t -> readable_header c k u l idb lenb -> readable_header c' k u l idb' lenb -> bytes_ok r ->
  let i := idb ++ lenb ++ r in let i' := idb' ++ lenb ++ r in
  ps_parse_ber (parser_of t) i = ps_parse_ber (parser_of t) i'
  /\ ps_parse_der (parser_of t) i = ps_parse_der (parser_of t) i'
  /\ (has_legacy t -> lg_from_ber (legacy_of t) i = lg_from_ber (legacy_of t) i'
                      /\ lg_from_der (legacy_of t) i = lg_from_der (legacy_of t) i').
Proof.
  intros U H1 H2 Hr i i'. pose proof (untagged_header_free t U) as F. pose proof (parser_regular t) as [R1 R2].
  set (h1 := hdr c k u l idb lenb). set (h2 := hdr c' k u l idb' lenb).
  assert (X : forall d, ps_ber_content (parser_of t) h1 d = ps_ber_content (parser_of t) h2 d
    /\ ps_der_content (parser_of t) h1 d = ps_der_content (parser_of t) h2 d) by (intros d; apply F; reflexivity).
  split; [|split].
  - rewrite !R1. unfold parse_ber, i, i'. rewrite (parse_header_at _ _ _ _ _ _ _ Hr H1), (parse_header_at _ _ _ _ _ _ _ Hr H2).
    cbn [bind]. fold h1 h2. change (h_tag h2) with (h_tag h1). destruct (accept_tag _ _); [|reflexivity].
    unfold MAX_RECURSION. rewrite (object_content_free h1 h2 r 49 eq_refl eq_refl).
    destruct (ber_object_content h2 r 50) as [[r2 d]| | |]; try reflexivity. cbn [bind ber_content codec_of].
    rewrite (proj1 (X d)). reflexivity.
  - rewrite !R2. unfold parse_der, i, i'. rewrite (parse_der_header_at _ _ _ _ _ _ _ Hr H1), (parse_der_header_at _ _ _ _ _ _ _ Hr H2).
    destruct (is_definite l); [|reflexivity]. cbn [bind]. fold h1 h2. change (h_tag h2) with (h_tag h1).
    destruct (accept_tag _ _); [|reflexivity]. change (h_length h2) with (h_length h1).
    destruct (h_length h1) as [m|]; [|reflexivity]. destruct (take m r) as [[r2 d]| | |]; try reflexivity.
    cbn [bind der_content codec_of]. rewrite (proj2 (X d)). reflexivity.
  - intros HL.
    assert (EB : forall B (f : any -> res B), (forall d, f (mk_any h1 d) = f (mk_any h2 d)) ->
      (let* (rem, a) := parse_ber_any i in let* x := f a in Ok (rem, x)) = (let* (rem, a) := parse_ber_any i' in let* x := f a in Ok (rem, x))).
    { intros B f E. unfold i, i'. rewrite (parse_ber_any_at _ _ _ _ _ _ _ Hr H1), (parse_ber_any_at _ _ _ _ _ _ _ Hr H2).
      fold h1 h2. unfold MAX_RECURSION. rewrite (object_content_free h1 h2 r 49 eq_refl eq_refl).
      destruct (ber_object_content h2 r 50) as [[r2 d]| | |]; try reflexivity. cbn [bind]. rewrite E. reflexivity. }
    assert (ED : forall B (f : any -> res B), (forall d, f (mk_any h1 d) = f (mk_any h2 d)) ->
      (let* (rem, a) := parse_der_any i in let* x := f a in Ok (rem, x)) = (let* (rem, a) := parse_der_any i' in let* x := f a in Ok (rem, x))).
    { intros B f E. unfold i, i'. rewrite (parse_der_any_at _ _ _ _ _ _ _ Hr H1), (parse_der_any_at _ _ _ _ _ _ _ Hr H2).
      fold h1 h2. destruct l as [m|]; [|reflexivity].
      destruct (take m r) as [[r2 d]| | |]; try reflexivity. cbn [bind]. rewrite E. reflexivity. }
    assert (ED' : forall B (f : any -> res B) (g : bytes -> res (bytes * B)),
      (forall j, g j = let* (rem, a) := parse_der_any j in let* x := f a in Ok (rem, x)) ->
      (forall d, f (mk_any h1 d) = f (mk_any h2 d)) -> g i = g i').
    { intros B f g G E. rewrite !G. apply ED. exact E. }
    destruct t; cbn [untagged has_legacy] in *; try contradiction.
    + pose proof (base_class_free b) as CF.
      assert (CF' : forall d, try_from_any (base_codec b) (mk_any h1 d) = try_from_any (base_codec b) (mk_any h2 d)
        /\ check_constraints (base_codec b) (mk_any h1 d) = check_constraints (base_codec b) (mk_any h2 d)) by (intros d; apply CF; reflexivity).
      split.
      * apply (EB _ (try_from_any (base_codec b))). intros d. apply CF'.
      * apply (ED' _ (fun a => let* _ := check_constraints (base_codec b) a in try_from_any (base_codec b) a)).
        -- intros j. cbn. unfold from_der. destruct (parse_der_any j) as [[rem a]| | |]; try reflexivity. cbn [bind].
           destruct (check_constraints _ a); reflexivity.
        -- intros d. destruct (CF' d) as [-> ->]. reflexivity.
    + split.
      * apply (EB _ (vec_try_from (legacy_of t))). reflexivity.
      * apply (ED' _ (fun a => let* _ := assert_tag (any_header a) TagSequence in seq_items (lg_from_der (legacy_of t)) (any_data a))).
        -- intros j. cbn. unfold vec_from_der. destruct (parse_der_any j) as [[rem a]| | |]; try reflexivity. cbn [bind].
           destruct (assert_tag _ _); reflexivity.
        -- reflexivity.
    + split.
      * apply (EB _ (setof_try_from (legacy_of t))). reflexivity.
      * apply (ED' _ (fun a => let* _ := assert_tag (any_header a) TagSet in seq_items (lg_from_der (legacy_of t)) (any_data a))).
        -- intros j. cbn. unfold setof_from_der. rewrite from_der_any_eq. destruct (parse_der_any j) as [[rem a]| | |]; try reflexivity. cbn [bind].
           destruct (assert_tag _ _); reflexivity.
        -- reflexivity.
    + split.
      * apply (EB _ (btreeset_try_from cmp (legacy_of t))). reflexivity.
      * apply (ED' _ (fun a => let* _ := assert_tag (any_header a) TagSet in let* _ := assert_constructed (any_header a) in
                      let* v := seq_items (lg_from_der (legacy_of t)) (any_data a) in Ok (set_of_list cmp v))).
        -- intros j. cbn. unfold btreeset_from_der. rewrite from_der_any_eq. destruct (parse_der_any j) as [[rem a]| | |]; try reflexivity. cbn [bind].
           destruct (assert_tag _ _); try reflexivity. cbn [bind]. destruct (assert_constructed _); try reflexivity. cbn [bind].
           apply (bind_map _ (set_of_list cmp) (fun x => (rem, x))).
        -- reflexivity.
Qed.
Print Assumptions C82_class_ignored.

(** Tagged types do look at it. *)
Theorem C82_tagged_partial {A} (t : ty A) c n c' k u l idb lenb r x :
  readable_header c' k u l idb lenb -> bytes_ok r ->
  let i := idb ++ lenb ++ r in
  (ps_parse_ber (parser_of (TExplicit c n t)) i = Ok x \/ ps_parse_der (parser_of (TExplicit c n t)) i = Ok x
   \/ ps_parse_ber (parser_of (TImplicit c n t)) i = Ok x \/ ps_parse_der (parser_of (TImplicit c n t)) i = Ok x
   \/ lg_from_ber (legacy_of (TExplicit c n t)) i = Ok x \/ lg_from_der (legacy_of (TExplicit c n t)) i = Ok x
   \/ lg_from_ber (legacy_of (TImplicit c n t)) i = Ok x \/ lg_from_der (legacy_of (TImplicit c n t)) i = Ok x) ->
  c' = c /\ u mod 2 ^ 32 = n.
Proof.
  intros H Hr i E. set (h := hdr c' k u l idb lenb).
  assert (PB : forall rem a, parse_ber_any i = Ok (rem, a) -> any_header a = h).
  { intros rem a. unfold i. rewrite (parse_ber_any_at _ _ _ _ _ _ _ Hr H). intros F. apply bind_ok in F as ([r2 d] & _ & F).
    injection F as _ <-. reflexivity. }
  assert (PD : forall rem a, parse_der_any i = Ok (rem, a) -> any_header a = h).
  { intros rem a. unfold i. rewrite (parse_der_any_at _ _ _ _ _ _ _ Hr H). destruct l; [|discriminate].
    intros F. apply bind_ok in F as ([r2 d] & _ & F). injection F as _ <-. reflexivity. }
  assert (C : h_class h = c -> h_tag h = n -> c' = c /\ u mod 2 ^ 32 = n) by (intros <- <-; split; reflexivity).
  assert (Hi : bytes_ok i).
  { destruct H as [(A1 & A2 & _) _]. unfold i. apply bytes_ok_app. split; [eapply ident_octets_ok; eassumption|].
    apply bytes_ok_app. split; [eapply length_octets_ok; eassumption|exact Hr]. }
  assert (TB : forall B (q : ty B) y, ps_parse_ber (parser_of q) i = Ok y ->
    ps_accept (parser_of q) (h_tag h) = true /\ exists d z w, ps_ber_content (parser_of q) h d = Ok (z, w)).
  { intros B q [rem y] F. apply typed_parse_ber in F as (a & z & F & Ac & G).
    pose proof (PB _ _ F) as Q. rewrite Q in Ac, G. eauto. }
  assert (TD : forall B (q : ty B) y, ps_parse_der (parser_of q) i = Ok y ->
    ps_accept (parser_of q) (h_tag h) = true /\ exists d z w, ps_der_content (parser_of q) h d = Ok (z, w)).
  { intros B q [rem y] F. apply typed_parse_der in F as (a & z & F & Ac & G); [|exact Hi].
    pose proof (PD _ _ F) as Q. rewrite Q in Ac, G. eauto. }
  revert E. intros [E|[E|[E|[E|[E|[E|[E|E]]]]]]].
  - apply TB in E as (Ac & d & z & w & E). apply explicit_content_ok in E as (_ & E1 & E2 & _). auto.
  - apply TD in E as (Ac & d & z & w & E). apply explicit_content_ok in E as (_ & E1 & E2 & _). auto.
  - apply TB in E as (Ac & d & z & w & E). apply implicit_content_ok in E as (E1 & _). apply is_tag_iff in Ac. auto.
  - apply TD in E as (Ac & d & z & w & E). apply implicit_content_ok in E as (E1 & _). apply is_tag_iff in Ac. auto.
  - apply bind_ok in E as ([rem a] & F & E). apply PB in F. apply bind_ok in E as (w & E & _).
    apply bind_ok in E as ([] & T & E). apply bind_ok in E as ([] & _ & E). apply bind_ok in E as ([] & K & _).
    apply assert_tag_ok in T. apply check_class_ok in K. rewrite F in *. auto.
  - cbn in E. unfold explicit_from_der in E. rewrite from_der_any_eq in E. apply bind_ok in E as ([rem a] & F & E). apply PD in F.
    apply bind_ok in E as ([] & T & E). apply bind_ok in E as ([] & _ & E). apply bind_ok in E as ([] & K & _).
    apply assert_tag_ok in T. apply check_class_ok in K. rewrite F in *. auto.
  - apply bind_ok in E as ([rem a] & F & E). apply PB in F. apply bind_ok in E as (w & E & _).
    apply bind_ok in E as ([] & T & E). apply bind_ok in E as ([] & K & _).
    apply assert_tag_ok in T. apply check_class_ok in K. rewrite F in *. auto.
  - cbn in E. unfold implicit_from_der in E. rewrite from_der_any_eq in E. apply bind_ok in E as ([rem a] & F & E). apply PD in F.
    apply bind_ok in E as (w & E & _). apply bind_ok in E as ([] & T & E). apply bind_ok in E as ([] & K & _).
    apply assert_tag_ok in T. apply check_class_ok in K. rewrite F in *. auto.
Qed.
Print Assumptions C82_tagged_partial.

(** [41 01 FF] is an object of class APPLICATION, [82 01 05] of class CONTEXT-SPECIFIC. *)
Theorem C82_class_refuted :
  ps_parse_der (parser_of (TBase BBool)) [0x41; 1; 0xff] = Ok ([], true)
  /\ lg_from_der (legacy_of (TBase BBool)) [0x41; 1; 0xff] = Ok ([], true)
  /\ ps_parse_der (parser_of (TBase (BInt 4))) [0x82; 1; 5] = Ok ([], 5%Z)
  /\ ps_parse_der (parser_of (TVec (TBase (BInt 4)))) [0xb0; 3; 0xc2; 1; 5] = Ok ([], [5%Z]).
Proof. vm_compute. repeat split. Qed.
Print Assumptions C82_class_refuted.

Example C82_case :
  untagged (TBase BBool) /\ has_legacy (TBase BBool)
  /\ readable_header Universal false 1 (Definite 1) [1] [1] /\ readable_header Application false 1 (Definite 1) [0x41] [1].
Proof.
  split; [exact I|]. split; [exact I|].
  split; (split; [split; [|split; [apply (lo_short 1); reflexivity|discriminate]]|]).
  - apply (id_low Universal false 1); reflexivity.
  - split; [vm_compute; discriminate|intros n E; injection E as <-; reflexivity].
  - apply (id_low Application false 1); reflexivity.
  - split; [vm_compute; discriminate|intros n E; injection E as <-; reflexivity].
Qed.

(** ** C83: header first, contents next *)

Lemma contents_deeper (m ex : bytes -> Prop) :
  (forall d l bs, contents m ex d l bs -> forall d', (d <= d')%nat -> contents m ex d' l bs)
  /\ (forall d bs, elements m ex d bs -> forall d', (d <= d')%nat -> elements m ex d' bs).
Proof.
  apply contents_elements_ind.
  - intros d n bs E d' Hd. destruct d' as [|d']; [lia|]. constructor. exact E.
  - intros d es mk _ IH Hm d' Hd. destruct d' as [|[|d']]; try lia. constructor; [|exact Hm]. apply IH. lia.
  - intros d d' _. constructor.
  - intros d c k t l idb lenb bs rest H1 H2 _ IH1 _ IH2 d' Hd. econstructor; eauto.
Qed.

(** Reading the header and then its contents, with the methods of [Header] (or of [Any]). *)
Definition two_steps (head : bytes -> res (bytes * header)) (content : header -> bytes -> res (bytes * bytes)) (i : bytes)
  : res (bytes * any) :=
  let* (i, h) := head i in let* (i, d) := content h i in Ok (i, mk_any h d).

Theorem C83_der (i : bytes) :
  two_steps header_parse_der header_der_content i = parse_der_any i
  /\ two_steps header_parse_der any_der_object_content i = parse_der_any i.
Proof.
  assert (two_steps header_parse_der header_der_content i = parse_der_any i); [|split; assumption].
  unfold two_steps, parse_der_any. destruct (header_parse_der i) as [[r h]| | |] eqn:E; try reflexivity. cbn [bind].
  unfold header_der_content, header_assert_definite, length_assert_definite, der_get_content.
  destruct (h_length h) as [n|] eqn:L; cbn [is_definite bind].
  - destruct (take n r) as [[r2 d]| | |]; reflexivity.
  - exfalso. unfold header_parse_der in E. apply bind_ok in E as ([r2 h2] & _ & E).
    destruct (is_definite (h_length h2)) eqn:D; [|discriminate]. injection E as <- <-. rewrite L in D. discriminate.
Qed.
Print Assumptions C83_der.

(** BER: the two steps never read anything else; they read as much for a definite length, and for an indefinite one
    exactly when no more than 8 objects lie within each other, the object itself and its end marker included. *)
Theorem C83_ber_partial (i rem : bytes) (a : any) :
  bytes_ok i ->
  any_ber_object_content = header_ber_content
  /\ (two_steps header_parse_ber header_ber_content i = Ok (rem, a) <->
      parse_ber_any i = Ok (rem, a)
      /\ (h_length (any_header a) = Indefinite ->
          exists hb bs, i = hb ++ bs ++ rem /\ h_raw_header (any_header a) = Some hb /\ impl_contents 8 Indefinite bs)).
Proof.
  intros Hi. split; [reflexivity|]. unfold two_steps, parse_ber_any.
  destruct (header_parse_ber i) as [[r h]| | |] eqn:E; cbn [bind];
    try (split; [discriminate|intros [F _]; discriminate]).
  pose proof E as E'. apply parse_header_ok in E' as (c & k & t & l & idb & lenb & _ & _ & Ei & Eh); [|exact Hi].
  assert (Hr : bytes_ok r) by (rewrite Ei, app_assoc in Hi; apply bytes_ok_app in Hi; apply Hi).
  assert (Raw : h_raw_header h = Some (idb ++ lenb)) by (rewrite Eh; reflexivity).
  split.
  - intros F. apply bind_ok in F as ([r2 d] & F & G). injection G as <- <-. cbn [any_header].
    apply ber_object_content_ok in F as (bs & -> & C & K & ->); [|exact Hr]. split.
    + assert (F : ber_object_content h (bs ++ r2) 50 = Ok (r2, content_of (h_length h) bs)).
      { apply ber_object_content_ok; [exact Hr|]. exists bs. split; [reflexivity|]. split; [|auto].
        apply (proj1 (contents_deeper _ _) _ _ _ C). lia. }
      unfold MAX_RECURSION. rewrite F. reflexivity.
    + intros L. exists (idb ++ lenb), bs. rewrite L in C. rewrite <- app_assoc. auto.
  - intros [F G]. apply bind_ok in F as ([r2 d] & F & F'). injection F' as <- <-. cbn [any_header] in G.
    unfold MAX_RECURSION in F. apply ber_object_content_ok in F as (bs & -> & C & K & ->); [|exact Hr].
    assert (F : header_ber_content h (bs ++ r2) = Ok (r2, content_of (h_length h) bs)).
    { apply ber_object_content_ok; [exact Hr|]. exists bs. split; [reflexivity|]. split; [|auto].
      destruct (h_length h) as [n|] eqn:L.
      - inversion C as [d0 n0 bs0 Hn|]. constructor. exact Hn.
      - destruct (G eq_refl) as (hb & bs' & Ei' & R' & C'). rewrite Raw in R'. injection R' as <-.
        rewrite Ei, <- app_assoc in Ei'. apply app_inv_head in Ei'. apply app_inv_head in Ei'. apply app_inv_tail in Ei'. subst. exact C'. }
    rewrite F. reflexivity.
Qed.
Print Assumptions C83_ber_partial.

(** Eight indefinite lengths within each other are too many for the two steps; [parse_ber] of the whole reads them. *)
Theorem C83_depth_refuted :
  exists i a, parse_ber_any i = Ok ([], a) /\ two_steps header_parse_ber header_ber_content i = Err EBerMaxDepth.
Proof.
  exists (concat (repeat [0x30; 0x80] 8) ++ concat (repeat [0; 0] 8)). eexists. split; vm_compute; reflexivity.
Qed.
Print Assumptions C83_depth_refuted.

Example C83_case :
  let i := concat (repeat [0x30; 0x80] 7) ++ concat (repeat [0; 0] 7) in
  is_ok (two_steps header_parse_ber header_ber_content i) = true /\ is_ok (parse_ber_any i) = true
  /\ is_ok (two_steps header_parse_der header_der_content [4; 2; 1; 2; 9]) = true.
Proof. vm_compute. repeat split. Qed.

(** ** C84: sums of lengths *)

(** Total of the lengths up to the first indefinite one, and whether there is one. *)
Fixpoint definite_before (ls : list blength) : N :=
  match ls with Definite n :: ls => n + definite_before ls | _ => 0 end.
Fixpoint all_definite (ls : list blength) : bool :=
  match ls with [] => true | Definite _ :: ls => all_definite ls | Indefinite :: _ => false end.

Lemma length_total_indefinite ls : length_total Indefinite ls = Ok Indefinite.
Proof. induction ls as [|l ls IH]; [reflexivity|exact IH]. Qed.

Lemma length_total_ok ls : forall acc, acc < 2 ^ 64 ->
  length_total (Definite acc) ls =
    if acc + definite_before ls <? 2 ^ 64
    then Ok (if all_definite ls then Definite (acc + definite_before ls) else Indefinite)
    else Panic.
Proof.
  induction ls as [|[n|] ls IH]; intros acc Ha; cbn [length_total definite_before all_definite length_plus].
  - rewrite N.add_0_r. destruct (N.ltb_spec acc (2 ^ 64)); [reflexivity|lia].
  - unfold usize_add. destruct (N.ltb_spec (acc + n) (2 ^ 64)) as [H|H]; cbn [bind].
    + rewrite IH by exact H. rewrite N.add_assoc. reflexivity.
    + destruct (N.ltb_spec (acc + (n + definite_before ls)) (2 ^ 64)); [lia|reflexivity].
  - cbn [bind]. rewrite length_total_indefinite, N.add_0_r. destruct (N.ltb_spec acc (2 ^ 64)); [reflexivity|lia].
Qed.

(** The sum of an iterator: indefinite if one is, else the total; a panic exactly when the lengths before the first
    indefinite one do not fit [usize]. *)
Theorem C84_sum (ls : list blength) :
  length_iter_sum ls =
    if definite_before ls <? 2 ^ 64
    then Ok (if all_definite ls then Definite (definite_before ls) else Indefinite)
    else Panic.
Proof. unfold length_iter_sum. rewrite length_total_ok by reflexivity. reflexivity. Qed.
Print Assumptions C84_sum.

(** All the operators compute the same sum, which does not depend on the order. *)
Theorem C84_operators (a b : blength) (n : N) :
  length_plus a b = length_plus b a /\ length_plus_assign a b = length_plus a b
  /\ length_plus_usize a n = length_plus a (Definite n) /\ usize_plus_length n a = length_plus (Definite n) a
  /\ (length_plus a b = Ok (length_add a b) \/ length_plus a b = Panic).
Proof.
  unfold length_plus, length_plus_assign, length_plus_usize, usize_plus_length, length_add, usize_add.
  destruct a as [x|], b as [y|]; rewrite ?(N.add_comm y x); repeat split; auto.
  destruct (x + y <? 2 ^ 64); auto.
Qed.
Print Assumptions C84_operators.

(** The order matters to a panic only. *)
Theorem C84_order_refuted :
  exists a b c, length_iter_sum [a; b; c] = Panic /\ length_iter_sum [c; a; b] = Ok Indefinite.
Proof. exists (Definite (2 ^ 64 - 1)), (Definite 1), Indefinite. vm_compute. split; reflexivity. Qed.
Print Assumptions C84_order_refuted.

Example C84_case : length_iter_sum [Definite 3; Definite 4] = Ok (Definite 7)
  /\ length_iter_sum [Definite 3; Indefinite; Definite (2 ^ 64 - 1)] = Ok Indefinite.
Proof. vm_compute. split; reflexivity. Qed.

(** ** C85: static copies *)

Lemma opt_bytes_eqb_refl o : opt_bytes_eqb o o = true.
Proof. destruct o; [|reflexivity]. cbn. unfold bytes_eqb. destruct (list_eq_dec _ _ _); [reflexivity|contradiction]. Qed.

(** A static copy compares equal to the original both ways, hashes to the same, is written as the same octets (or
    fails alike), and no comparison tells the two apart. *)
Theorem C85_static_header (h : header) :
  header_eqb h (header_to_static h) = true /\ header_eqb (header_to_static h) h = true
  /\ header_hash_input (header_to_static h) = header_hash_input h
  /\ write_header (tober_header (header_to_static h)) = write_header (tober_header h)
  /\ header_to_static (header_to_static h) = header_to_static h
  /\ (forall x, header_eqb (header_to_static h) x = header_eqb h x).
Proof.
  assert (R : header_eqb h h = true).
  { unfold header_eqb. rewrite N.eqb_refl, opt_bytes_eqb_refl, Bool.eqb_reflx.
    replace (class_eqb (h_class h) (h_class h)) with true by (destruct (h_class h); reflexivity).
    replace (blength_eqb (h_length h) (h_length h)) with true by (destruct (h_length h); [symmetry; apply N.eqb_refl|reflexivity]).
    destruct (is_null (h_length h)), (xor_is_none (h_raw_tag h) (h_raw_tag h)); reflexivity. }
  split; [exact R|]. split; [exact R|]. repeat split.
Qed.
Print Assumptions C85_static_header.

(** The copy is not the same value: the octets of the header are not kept. *)
Example C85_case : exists h r, header_parse_ber [0x1f; 0x81; 0x01; 0x81; 3; 7] = Ok (r, h)
  /\ header_to_static h <> h /\ h_raw_tag (header_to_static h) = Some [0x1f; 0x81; 0x01]
  /\ header_eqb (header_to_static h) (header_new Universal false 129 (Definite 7)) = true.
Proof. eexists. eexists. split; [vm_compute; reflexivity|]. split; [discriminate|vm_compute; split; reflexivity]. Qed.
