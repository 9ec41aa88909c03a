(** The types of MKind: with spans they give what they give without, with spans that lie in the input; the log changes nothing. *)
From Verif Require Import Base MHeader MEncode MBer MInt MSeg MCont MColl MDerive MSpan SSpan PSpan PropSpan MTrace PropTrace PLog MKind.

Scheme kty_ind' := Induction for kty Sort Prop
  with kfields_ind' := Induction for kfields Sort Prop
  with kvariants_ind' := Induction for kvariants Sort Prop.
Combined Scheme kty_mutind from kty_ind', kfields_ind', kvariants_ind'.

(** ** The parsers without spans *)

Definition string_ber {T U} (g : segments T) (finish : T -> res U) (h : header) (i : bytes) : res (bytes * U) :=
  let* (rem, d) := if negb (h_constructed h) then sg_prim g h i
                   else parse_ber_segmented (sg_accept g) (sg_default g) (sg_append g) (sg_prim g) (sg_limit g) h i in
  let* x := finish d in
  Ok (rem, x).
Definition string_parser {T U} (tag : N) (g : segments T) (finish : T -> res U) : parser U :=
  default_parser (is_tag tag) (string_ber g finish) (fun h i => let* _ := assert_primitive h in string_ber g finish h i).

Fixpoint plain_of {S U} (t : kty S U) : parser U :=
  match t with
  | KAny => codec_parser any_codec
  | KPlain p => codec_parser p
  | KInteger => codec_parser integer_codec
  | KString tag g finish => string_parser tag g finish
  | KVec t => vec_parser (plain_of t)
  | KArray n t => array_parser n (plain_of t)
  | KSetOf t => setof_parser (plain_of t)
  | KBTreeSet cmp t => btreeset_parser cmp (plain_of t)
  | KHashSet same t => hashset_parser same (plain_of t)
  | KAnySequence => any_items_parser TagSequence
  | KTagged g t => tagged_parser g (plain_of t)
  | KOption t => option_parser (plain_of t)
  | KAlias t => alias_parser (plain_of t)
  | KTuple fs => tuple_parser (plain_ber fs) (plain_der fs)
  | KStruct set fs => struct_parser (if set then TagSet else TagSequence) (plain_ber fs) (plain_der fs)
  | KChoice k vs => choice_parser k (plain_accept k vs) (plain_ber_variants k vs) (plain_der_variants k vs)
  end
with plain_ber {S U} (fs : kfields S U) : fields U :=
  match fs with
  | KNil => no_field
  | KField t fs => field (fld_plain (plain_of t)) (plain_ber fs)
  | KDefault d t fs => field (with_default (kbare t d) (fld_plain (option_parser (plain_of t)))) (plain_ber fs)
  | KTaggedOption g t fs => field (fld_tagged_optional g (plain_of t)) (plain_ber fs)
  | KTaggedDefault g d t fs => field (with_default (kbare t d) (fld_tagged_optional g (plain_of t))) (plain_ber fs)
  end
with plain_der {S U} (fs : kfields S U) : fields U :=
  match fs with
  | KNil => no_field
  | KField t fs => field (fld_plain_der (plain_of t)) (plain_der fs)
  | KDefault d t fs => field (with_default (kbare t d) (fld_plain_der (option_parser (plain_of t)))) (plain_der fs)
  | KTaggedOption g t fs => field (fld_tagged_optional_der g (plain_of t)) (plain_der fs)
  | KTaggedDefault g d t fs => field (with_default (kbare t d) (fld_tagged_optional_der g (plain_of t))) (plain_der fs)
  end
with plain_accept {S U} (k : option tag_kind) (vs : kvariants S U) : N -> bool :=
  match vs with
  | KEmpty => fun _ => false
  | KVariant n t vs => fun x => (match k with Some _ => x =? n | None => ps_accept (plain_of t) x end) || plain_accept k vs x
  end
with plain_ber_variants {S U} (k : option tag_kind) (vs : kvariants S U) : variants U :=
  match vs with
  | KEmpty => no_variant
  | KVariant n t vs =>
      match k with
      | Some kd => tagged_variant kd n (ps_parse_ber (plain_of t)) (ps_ber_content (plain_of t)) (plain_ber_variants k vs)
      | None => untagged_variant (ps_accept (plain_of t)) (ps_ber_content (plain_of t)) (plain_ber_variants k vs)
      end
  end
with plain_der_variants {S U} (k : option tag_kind) (vs : kvariants S U) : variants U :=
  match vs with
  | KEmpty => no_variant
  | KVariant n t vs =>
      match k with
      | Some kd => tagged_variant kd n (ps_parse_der (plain_of t)) (ps_der_content (plain_of t)) (plain_der_variants k vs)
      | None => untagged_variant (ps_accept (plain_of t)) (ps_der_content (plain_of t)) (plain_der_variants k vs)
      end
  end.

(** The inputs in a value. *)
Definition any_inputs (a : sany) : list input := raw_of (sa_header a) ++ [sa_data a].
Definition option_inputs {S} (f : S -> list input) (o : option S) : list input := match o with Some x => f x | None => [] end.
Fixpoint kinputs {S U} (t : kty S U) : S -> list input :=
  match t with
  | KAny => any_inputs
  | KPlain _ | KString _ _ _ => fun _ => []
  | KInteger => fun _ => []
  | KVec t | KArray _ t | KSetOf t | KBTreeSet _ t | KHashSet _ t => flat_map (kinputs t)
  | KAnySequence => flat_map any_inputs
  | KTagged _ t | KAlias t => kinputs t
  | KOption t => option_inputs (kinputs t)
  | KTuple fs | KStruct _ fs => kinputs_fields fs
  | KChoice _ vs => kinputs_variants vs
  end
with kinputs_fields {S U} (fs : kfields S U) : S -> list input :=
  match fs with
  | KNil => fun _ => []
  | KField t fs | KDefault _ t fs | KTaggedDefault _ _ t fs => fun v => kinputs t (fst v) ++ kinputs_fields fs (snd v)
  | KTaggedOption _ t fs => fun v => option_inputs (kinputs t) (fst v) ++ kinputs_fields fs (snd v)
  end
with kinputs_variants {S U} (vs : kvariants S U) : S -> list input :=
  match vs with
  | KEmpty => fun _ => []
  | KVariant _ t vs => fun v => match v with inl x => kinputs t x | inr y => kinputs_variants vs y end
  end.

(** Default values hold no [Input]: they are constants, not parts of what is read. *)
Fixpoint constant_defaults {S U} (t : kty S U) : Prop :=
  match t with
  | KAny | KPlain _ | KInteger | KString _ _ _ | KAnySequence => True
  | KVec t | KArray _ t | KSetOf t | KBTreeSet _ t | KHashSet _ t | KTagged _ t | KAlias t | KOption t => constant_defaults t
  | KTuple fs | KStruct _ fs => constant_fields fs
  | KChoice _ vs => constant_variants vs
  end
with constant_fields {S U} (fs : kfields S U) : Prop :=
  match fs with
  | KNil => True
  | KField t fs | KTaggedOption _ t fs => constant_defaults t /\ constant_fields fs
  | KDefault d t fs | KTaggedDefault _ d t fs => kinputs t d = [] /\ constant_defaults t /\ constant_fields fs
  end
with constant_variants {S U} (vs : kvariants S U) : Prop :=
  match vs with
  | KEmpty => True
  | KVariant _ t vs => constant_defaults t /\ constant_variants vs
  end.

(** ** The relation

    [m] is the parser with logging as configured, [m0] the parser with the features off, [r] the parser without spans. *)
Section Kinds.
Context (c : config) (whole : bytes) (W : small whole).

Definition rel {A B} (f : A -> B) (P : A -> Prop) (m m0 : lres A) (r : res B) : Prop :=
  snd m = snd m0 /\ sim whole f P (snd m) r /\ writes_nothing c m /\ shaped c whole m.

Lemma rel_weaken {A B} (f : A -> B) (P Q : A -> Prop) m m0 r : (forall a, P a -> Q a) -> rel f P m m0 r -> rel f Q m m0 r.
Proof. intros H (E & S & N). split; [exact E|]. split; [eapply sim_weaken; eassumption | exact N]. Qed.
Lemma rel_silent {A B} (f : A -> B) (P : A -> Prop) (x : sres A) r : sim whole f P x r -> rel f P (silent x) (silent x) r.
Proof. intros S. split; [reflexivity|]. split; [exact S|]. split; [apply nothing_silent | apply shaped_silent]. Qed.
Lemma rel_ok {A B} (f : A -> B) (P : A -> Prop) a b : b = f a -> P a -> rel f P (silent (SOk a)) (silent (SOk a)) (Ok b).
Proof. intros E H. apply rel_silent. cbn. auto. Qed.
Lemma rel_err {A B} (f : A -> B) (P : A -> Prop) i e : located whole i -> rel f P (silent (SErr i e)) (silent (SErr i e)) (Err e).
Proof. intros L. apply rel_silent. cbn. auto. Qed.
Lemma rel_bind {A B A' B'} (f : A -> A') (g : B -> B') (P : A -> Prop) (Q : B -> Prop) m m0 r (k k0 : A -> lres B) k' :
  rel f P m m0 r -> (forall a, P a -> rel g Q (k a) (k0 a) (k' (f a))) -> rel g Q (lbind m k) (lbind m0 k0) (bind r k').
Proof.
  intros (E & S & N & G) H. unfold rel. rewrite !snd_bind, <- E. split; [|split; [|split]].
  - unfold sim in S. destruct (snd m) as [a| | |]; cbn; try reflexivity. destruct r; try contradiction. apply (H a). apply S.
  - eapply sim_bind; [exact S|]. intros a Pa. apply (H a Pa).
  - unfold writes_nothing, lbind. intros D. unfold writes_nothing in N. unfold sim in S. destruct (snd m) as [a| | |] eqn:Em; cbn [fst snd] in *.
    + destruct r; try contradiction. destruct (H a (proj2 S)) as (_ & _ & Nk & _). rewrite N, Nk; [reflexivity | exact D|].
      destruct D as [D|[D _]]; [left; exact D | right; split; [exact D | exists a; reflexivity]].
    + apply N. destruct D as [D|[D [? Z]]]; [tauto | discriminate].
    + apply N. destruct D as [D|[D [? Z]]]; [tauto | discriminate].
    + apply N. destruct D as [D|[D [? Z]]]; [tauto | discriminate].
  - apply shaped_bind; [exact G|]. intros a Ea. unfold sim in S. rewrite Ea in S. destruct r; try contradiction. apply (H a (proj2 S)).
Qed.
Lemma rel_at {A B C} (g : B -> C) (Q : B -> Prop) i (r : res A) (k k0 : A -> lres B) k' :
  located whole i -> (forall a, r = Ok a -> rel g Q (k a) (k0 a) (k' a)) ->
  rel g Q (lbind (silent (at_input i r)) k) (lbind (silent (at_input i r)) k0) (bind r k').
Proof.
  intros L H. apply (rel_bind (fun a => a) g (fun a => r = Ok a)); [|exact H].
  apply rel_silent. destruct r; cbn; auto.
Qed.
Lemma rel_trace {T B} s (f f0 : input -> lres (input * T)) i (g : input * T -> B) (P : input * T -> Prop) r :
  located whole i -> rel g P (f i) (f0 i) r -> (forall q, P q -> suffix whole i (fst q)) ->
  rel g P (trace_input c s f i) (trace_input (off c) s f0 i) r.
Proof.
  intros L (E & S & N & G) H. assert (X: snd (trace_input c s f i) = snd (f i)).
  { rewrite trace_result. unfold checked. unfold sim in S. destruct (snd (f i)) as [[rem x]| | |]; try reflexivity.
    destruct r; try contradiction. destruct (H _ (proj2 S)) as (_ & _ & Hq). cbn [fst] in Hq. destruct (N.ltb_spec (in_start rem) (in_start i)); [lia|].
    rewrite andb_false_r. reflexivity. }
  split; [|split; [|split]].
  - rewrite X. unfold trace_input, off, debugging. cbn [cf_debug cf_trace orb]. exact E.
  - rewrite X. exact S.
  - apply nothing_trace. exact N.
  - apply shaped_trace; [exact W | exact L | | exact G]. intros q Eq. unfold sim in S. rewrite Eq in S. destruct r; try contradiction. apply H. apply S.
Qed.

Definition at_layout (i : input) (p : input * sheader) : Prop := header_layout whole i (snd p) (fst p) /\ suffix whole i (fst p).
Lemma header_rel i : located whole i -> rel dataH (at_layout i) (t_header c i) (t_header (off c) i) (parse_header (in_data i)).
Proof. intros L. apply rel_trace; [exact L|apply rel_silent, parse_header_sim; assumption|]. intros q [_ S]. apply S. Qed.
Lemma header_der_rel i : located whole i -> rel dataH (at_layout i) (t_header_der c i) (t_header_der (off c) i) (header_parse_der (in_data i)).
Proof. intros L. apply rel_trace; [exact L|apply rel_silent, parse_header_der_sim; assumption|]. intros q [_ S]. apply S. Qed.
Lemma skip_loop_rel skip skip0 skip' :
  (forall h i, located whole i -> rel dataN (fun p => suffix whole i (fst p)) (skip h i) (skip0 h i) (skip' (sh_fields h) (in_data i))) ->
  forall fuel i, located whole i ->
  rel dataN (fun p => suffix whole i (fst p)) (t_skip_loop c skip fuel i) (t_skip_loop (off c) skip0 fuel i) (skip_loop skip' fuel (in_data i)).
Proof.
  intros K. induction fuel as [|fuel IH]; intros i L; [apply rel_err; exact L|]. cbn [t_skip_loop skip_loop].
  eapply rel_bind; [apply header_rel; exact L|]. intros [i2 h2] [_ S2]. cbn [dataH fst snd] in *.
  eapply rel_bind; [apply K; apply S2|]. intros [i3 eoc] S3. cbn [dataN fst snd] in *.
  pose proof (suffix_trans _ _ _ _ S2 S3) as S4. destruct eoc; [apply rel_ok; [reflexivity | exact S4]|].
  eapply rel_weaken; [|apply IH; apply S4]. intros a H. eapply suffix_trans; eassumption.
Qed.
Lemma skip_content_rel : forall d h i, located whole i ->
  rel dataN (fun p => suffix whole i (fst p)) (t_skip_content c d h i) (t_skip_content (off c) d h i) (skip_content d (sh_fields h) (in_data i)).
Proof.
  induction d as [|d IH]; intros h i L; [apply rel_err; exact L|]. cbn [t_skip_content skip_content].
  destruct (h_length (sh_fields h)) as [l|].
  - destruct ((l =? 0) && _); [apply rel_ok; [reflexivity | apply suffix_refl; exact L]|].
    eapply rel_bind; [apply rel_silent, take_sim; assumption|]. intros [r x] (S & _). apply rel_ok; [reflexivity | exact S].
  - apply rel_at; [exact L|]. intros _ _. apply skip_loop_rel; auto.
Qed.
Lemma content_rel h i d : located whole i ->
  rel data2 (content_at whole (sh_fields h) i) (t_ber_object_content c h i d) (t_ber_object_content (off c) h i d)
      (ber_object_content (sh_fields h) (in_data i) d).
Proof.
  intros L. destruct (object_content_agrees c whole W h i d L) as [E _]. destruct (object_content_agrees (off c) whole W h i d L) as [E0 _].
  split; [congruence|]. split; [rewrite E; apply ber_object_content_sim; assumption|]. split; [apply nothing_content|].
  apply shaped_bind; [apply (skip_content_rel d h i L)|]. intros [r x] _. apply shaped_silent.
Qed.

(** The value that a content parser gives; callers drop the rest of the content. *)
Definition content_ok {S U} (f : S -> U) (good : S -> Prop) (i : input) (m m0 : lres (input * S)) (r : res (bytes * U)) : Prop :=
  rel (fun q => f (snd q)) (fun q => suffix whole i (fst q) /\ good (snd q)) m m0 (value' r).
Definition parse_ok {S U} (f : S -> U) (good : S -> Prop) (i : input) (m m0 : lres (input * S)) (r : res (bytes * U)) : Prop :=
  rel (dataV f) (fun q => suffix whole i (fst q) /\ good (snd q)) m m0 r.

Lemma parse_content {S U} (f : S -> U) good i m m0 r : parse_ok f good i m m0 r -> content_ok f good i m m0 r.
Proof.
  intros (E & H & N). split; [exact E|]. split; [|exact N]. unfold sim in *. destruct (snd m) as [[rem x]| | |], r as [[b y]| | |]; cbn in *; try contradiction; auto.
  destruct H as [H K]. unfold dataV in H. cbn [fst snd] in H. injection H as _ ->. split; [reflexivity | exact K].
Qed.

(** A type: its contents and its objects. *)
Definition type_ok {S U} (f : S -> U) (good : S -> Prop) (k k0 : kparser S) (p : parser U) : Prop :=
  (forall n, kp_accept k n = ps_accept p n) /\ (forall n, kp_accept k0 n = ps_accept p n)
  /\ (forall h i, header_located whole h -> located whole i ->
      content_ok f good i (kp_ber k h i) (kp_ber k0 h i) (ps_ber_content p (sh_fields h) (in_data i))
      /\ content_ok f good i (kp_der k h i) (kp_der k0 h i) (ps_der_content p (sh_fields h) (in_data i)))
  /\ (forall i, located whole i ->
      parse_ok f good i (kp_parse_ber k i) (kp_parse_ber k0 i) (ps_parse_ber p (in_data i))
      /\ parse_ok f good i (kp_parse_der k i) (kp_parse_der k0 i) (ps_parse_der p (in_data i))).

Section Default.
  Context {S U : Type} (f : S -> U) (good : S -> Prop) (p p0 : tparser S) (q : parser U).
  Hypothesis A : forall n, tp_accept p n = ps_accept q n.
  Hypothesis A0 : forall n, tp_accept p0 n = ps_accept q n.
  Hypothesis C : forall h i, header_located whole h -> located whole i ->
      content_ok f good i (tp_ber p h i) (tp_ber p0 h i) (ps_ber_content q (sh_fields h) (in_data i))
      /\ content_ok f good i (tp_der p h i) (tp_der p0 h i) (ps_der_content q (sh_fields h) (in_data i)).

  Lemma default_ber i : located whole i -> parse_ok f good i (t_parse_ber c p i) (t_parse_ber (off c) p0 i) (parse_ber (codec_of q) (in_data i)).
  Proof.
    intros L. apply rel_trace; [exact L| |intros x [H _]; apply H]. unfold parse_ber. eapply rel_bind; [apply header_rel; exact L|].
    intros [r h] [H Sx]. cbn [dataH fst snd codec_of accept_tag ber_content] in *. rewrite A, A0. destruct (ps_accept q _); [|apply rel_err; exact L].
    eapply rel_bind; [apply content_rel; apply Sx|]. intros [r2 d] D. cbn [data2 fst snd] in *. rewrite bind_value'.
    eapply rel_bind; [apply rel_trace; [apply D|apply C; [eapply layout_header; exact H | apply D] | intros x [Hx _]; apply Hx]|].
    intros [r3 x] [_ G]. cbn [fst snd] in *. apply rel_ok; [reflexivity|]. split; [|exact G]. eapply suffix_trans; [exact Sx | apply D].
  Qed.
  Lemma default_der i : located whole i -> parse_ok f good i (t_parse_der c p i) (t_parse_der (off c) p0 i) (parse_der (codec_of q) (in_data i)).
  Proof.
    intros L. apply rel_trace; [exact L| |intros x [H _]; apply H]. unfold parse_der. eapply rel_bind; [apply header_der_rel; exact L|].
    intros [r h] [H Sx]. cbn [dataH fst snd codec_of accept_tag der_content] in *. destruct (h_length (sh_fields h)) as [l|]; [|apply rel_err; exact L].
    rewrite A, A0. destruct (ps_accept q _); [|apply rel_err; exact L].
    eapply rel_bind; [apply rel_silent, take_sim; [exact W | apply Sx]|]. intros [r2 d] D. cbn [data2 fst snd] in *. rewrite bind_value'.
    eapply rel_bind; [apply rel_trace; [apply D|apply C; [eapply layout_header; exact H | apply D] | intros x [Hx _]; apply Hx]|].
    intros [r3 x] [_ G]. cbn [fst snd] in *. apply rel_ok; [reflexivity|]. split; [|exact G]. eapply suffix_trans; [exact Sx | apply D].
  Qed.

  Lemma default_ok : (forall i, ps_parse_ber q i = parse_ber (codec_of q) i) -> (forall i, ps_parse_der q i = parse_der (codec_of q) i) ->
    type_ok f good (k_default c p) (k_default (off c) p0) q.
  Proof.
    intros B D. split; [exact A|]. split; [exact A0|]. split; [exact C|]. intros i L. cbn [k_default kp_parse_ber kp_parse_der]. rewrite B, D.
    split; [apply default_ber | apply default_der]; exact L.
  Qed.

  Definition opt_good (o : option S) : Prop := match o with Some x => good x | None => True end.
  Lemma optional_ber i : located whole i ->
    parse_ok (option_map f) opt_good i (t_parse_ber_optional c p i) (t_parse_ber_optional (off c) p0 i) (parse_ber_optional (codec_of q) (in_data i)).
  Proof.
    intros L. unfold t_parse_ber_optional, parse_ber_optional.
    assert (N: rel (dataV (option_map f)) (fun x => suffix whole i (fst x) /\ opt_good (snd x)) (silent (SOk (i, None))) (silent (SOk (i, None))) (Ok (in_data i, None))).
    { apply rel_ok; [reflexivity|]. split; [apply suffix_refl; exact L | exact I]. }
    destruct (blen (in_data i) =? 0); [exact N|]. eapply rel_bind; [apply header_rel; exact L|].
    intros [r h] [H Sx]. cbn [dataH fst snd codec_of accept_tag ber_content] in *. rewrite A, A0. destruct (ps_accept q _); [|exact N].
    eapply rel_bind; [apply content_rel; apply Sx|]. intros [r2 d] D. cbn [data2 fst snd] in *. rewrite bind_value'.
    eapply rel_bind; [apply C; [eapply layout_header; exact H | apply D]|].
    intros [r3 x] [_ G]. cbn [fst snd] in *. apply rel_ok; [reflexivity|]. split; [|exact G]. eapply suffix_trans; [exact Sx | apply D].
  Qed.
  Lemma optional_der i : located whole i ->
    parse_ok (option_map f) opt_good i (t_parse_der_optional c p i) (t_parse_der_optional (off c) p0 i) (parse_der_optional (codec_of q) (in_data i)).
  Proof.
    intros L. unfold t_parse_der_optional, parse_der_optional.
    assert (N: rel (dataV (option_map f)) (fun x => suffix whole i (fst x) /\ opt_good (snd x)) (silent (SOk (i, None))) (silent (SOk (i, None))) (Ok (in_data i, None))).
    { apply rel_ok; [reflexivity|]. split; [apply suffix_refl; exact L | exact I]. }
    destruct (blen (in_data i) =? 0); [exact N|]. eapply rel_bind; [apply header_der_rel; exact L|].
    intros [r h] [H Sx]. cbn [dataH fst snd codec_of accept_tag der_content] in *. rewrite A, A0. destruct (ps_accept q _); [|exact N].
    destruct (h_length (sh_fields h)) as [l|]; [|apply rel_err; exact L].
    eapply rel_bind; [apply rel_silent, take_sim; [exact W | apply Sx]|]. intros [r2 d] D. cbn [data2 fst snd] in *. rewrite bind_value'.
    eapply rel_bind; [apply C; [eapply layout_header; exact H | apply D]|].
    intros [r3 x] [_ G]. cbn [fst snd] in *. apply rel_ok; [reflexivity|]. split; [|exact G]. eapply suffix_trans; [exact Sx | apply D].
  Qed.
  Lemma as_input_ber i : located whole i ->
    rel dataI (input_at whole i) (t_parse_ber_as_input c p i) (t_parse_ber_as_input (off c) p0 i) (parse_ber_as_input (codec_of q) (in_data i)).
  Proof.
    intros L. apply rel_trace; [exact L| |intros x [_ Hx]; apply Hx]. unfold parse_ber_as_input. eapply rel_bind; [apply header_rel; exact L|].
    intros [r h] [H Sx]. cbn [dataH fst snd codec_of accept_tag] in *. rewrite A, A0. destruct (ps_accept q _); [|apply rel_err; exact L].
    eapply rel_bind; [apply content_rel; apply Sx|]. intros [r2 d] D. cbn [data2 fst snd] in *. apply rel_ok; [reflexivity|].
    split; cbn [fst snd]; [eapply object_layout_intro; eassumption | eapply suffix_trans; [exact Sx | apply D]].
  Qed.
  Lemma as_input_der i : located whole i ->
    rel dataI (input_at whole i) (t_parse_der_as_input c p i) (t_parse_der_as_input (off c) p0 i) (parse_der_as_input (codec_of q) (in_data i)).
  Proof.
    intros L. apply rel_trace; [exact L| |intros x [_ Hx]; apply Hx]. unfold parse_der_as_input. eapply rel_bind; [apply header_der_rel; exact L|].
    intros [r h] [H Sx]. cbn [dataH fst snd codec_of accept_tag] in *. rewrite A, A0. destruct (ps_accept q _); [|apply rel_err; exact L].
    eapply rel_bind; [apply rel_silent, der_get_content_sim; [exact W | apply Sx]|]. intros [r2 d] D. cbn [data2 fst snd] in *. apply rel_ok; [reflexivity|].
    split; cbn [fst snd]; [eapply object_layout_intro; eassumption | eapply suffix_trans; [exact Sx | apply D]].
  Qed.
End Default.

(** ** Leaves *)

Lemma quiet_ok {S U} (f : S -> U) (good : S -> Prop) i (x : sres (input * S)) (r : res (bytes * U)) :
  sim whole f good (value x) (value' r) -> (forall q, x = SOk q -> suffix whole i (fst q)) -> content_ok f good i (silent x) (silent x) r.
Proof.
  intros S0 H. apply rel_silent. unfold sim in *. destruct x as [[rem y]| | |], r as [[b z]| | |]; cbn in *; try contradiction; auto.
  destruct S0 as [-> G]. split; [reflexivity|]. split; [exact (H _ eq_refl) | exact G].
Qed.
Lemma quiet_parser_ok {S U} (f : S -> U) good (sp : sparser S) (p : parser U) :
  tracks f good sp p -> unchanged whole (quiet sp) sp -> type_ok f (good whole) (k_default c (quiet sp)) (k_default (off c) (quiet sp)) p.
Proof.
  intros (A & B & D & C) [_ V]. apply default_ok; [exact A | exact A | | exact B | exact D].
  intros h i Hh L. destruct (C whole W h i Hh L) as [C1 C2]. destruct (V h i Hh L) as [[_ V1] [_ V2]].
  split; apply quiet_ok; assumption.
Qed.
Lemma good_any_inputs a : good_any whole a <-> Forall (located whole) (any_inputs a).
Proof.
  unfold good_any, any_inputs, raw_of, header_located. rewrite Forall_app. split.
  - intros [H L]. split; [|repeat constructor; exact L]. destruct (sh_raw (sa_header a)); constructor; auto.
  - intros [H L]. inversion L; subst. split; [|assumption]. intros raw E. rewrite E in H. inversion H. assumption.
Qed.
Lemma any_ok : type_ok forget_any (good_any whole) (k_default c (quiet s_any_parser)) (k_default (off c) (quiet s_any_parser)) (codec_parser any_codec).
Proof. apply (quiet_parser_ok dataA good_any); [exact any_tracks | apply any_unchanged; exact W]. Qed.
Lemma plain_ok {T} (p : codec T) :
  type_ok (fun x => x) (fun _ => True) (k_default c (quiet (s_plain_parser (codec_parser p)))) (k_default (off c) (quiet (s_plain_parser (codec_parser p)))) (codec_parser p).
Proof. apply (quiet_parser_ok (fun x => x) (fun _ _ => True)); [apply plain_tracks | apply plain_unchanged]. Qed.
Lemma integer_ok : type_ok (fun x => x) (fun _ => True) (k_default c (t_integer_parser c)) (k_default (off c) (t_integer_parser (off c))) (codec_parser integer_codec).
Proof.
  assert (B: forall h i, located whole i ->
    content_ok (fun x => x) (fun _ => True) i (t_integer_ber c h i) (t_integer_ber (off c) h i) (integer_ber_content (sh_fields h) (in_data i))).
  { intros h i L. apply rel_trace; [exact L| |intros q [S _]; apply S]. unfold integer_ber_content, s_integer_content. apply (quiet_ok (fun x => x) (fun _ => True)).
    - eapply value_dataV with (P := fun _ => True) (f := fun x => x); [auto|]. apply sim_at'; [exact L|]. intros _ _.
      eapply sim_bind; [apply der_get_content_sim; assumption|]. intros [r d] (D1 & D2 & _). cbn [data2 fst snd] in *.
      unfold blen. destruct (in_data d) eqn:Ed; [change (N.of_nat (length (@nil N)) =? 0) with true; cbn; auto | cbn; split; reflexivity].
    - intros [rem x] E. cbn [fst]. destruct (assert_primitive (sh_fields h)); try discriminate. cbn [at_input sbind] in E. unfold s_der_get_content in E.
      destruct (h_length (sh_fields h)); [|discriminate]. destruct (s_take _ i) as [[r d]| | |] eqn:T; try discriminate. cbn [sbind] in E.
      destruct (_ =? 0); [discriminate|]. injection E as <- _. eapply take_suffix; eassumption. }
  apply default_ok; try reflexivity. intros h i Hh L. split; [apply B; exact L|].
  cbn [tp_der t_integer_parser ps_der_content codec_parser der_content integer_codec]. unfold t_integer_der, integer_der_content, content_ok, value'.
  destruct (check_der_int_input (in_data i)); cbn [bind]; try (apply rel_silent; cbn; auto; fail).
  apply B. exact L.
Qed.

(** ** Collections *)

Lemma parsed_any_ber i : located whole i ->
  rel dataO (any_item whole i) (t_parse_ber c (quiet s_any_parser) i) (t_parse_ber (off c) (quiet s_any_parser) i) (any_parse_ber (in_data i)).
Proof. intros L. exact (proj1 (proj2 (proj2 (proj2 any_ok)) i L)). Qed.
Lemma parsed_any_der i : located whole i ->
  rel dataO (any_item whole i) (t_parse_der c (quiet s_any_parser) i) (t_parse_der (off c) (quiet s_any_parser) i) (any_parse_der (in_data i)).
Proof. intros L. exact (proj2 (proj2 (proj2 (proj2 any_ok)) i L)). Qed.

Lemma rel_close {A B} (f : A -> B) P i m m0 r : located whole i -> rel f P m m0 r ->
  rel f P (fst m, s_close i (snd m)) (fst m0, s_close i (snd m0)) (close r).
Proof.
  intros L (E & S & N). split; [cbn [snd]; congruence|]. split; [apply close_sim; assumption|]. destruct N as [N G]. split; [apply nothing_close; exact N | apply shaped_close; exact G].
Qed.

Lemma collect_rel {S U} (f : S -> U) (good : S -> Prop) p p0 p' (g g0 : sany -> lres S) g' :
  (forall i, located whole i -> rel dataO (any_item whole i) (p i) (p0 i) (p' (in_data i))) ->
  (forall a, good_any whole a -> rel f good (g a) (g0 a) (g' (dataA a))) ->
  forall fuel i, located whole i ->
  parse_ok (map f) (Forall good) i (t_collect_loop p g fuel i) (t_collect_loop p0 g0 fuel i) (collect_loop p' g' fuel (in_data i)).
Proof.
  intros Hp Hg. induction fuel as [|fuel IH]; intros i L; [apply rel_err; exact L|]. cbn [t_collect_loop collect_loop].
  destruct (blen (in_data i) =? 0). { apply rel_ok; [reflexivity|]. split; [apply suffix_refl; exact L | constructor]. }
  eapply rel_bind; [apply rel_close; [exact L | apply Hp; exact L]|]. intros [r a] [Sx G]. cbn [dataO fst snd] in *.
  eapply rel_bind; [apply Hg; exact G|]. intros x Gx. eapply rel_bind; [apply IH; apply Sx|].
  intros [r2 xs] [S2 F]. cbn [dataV fst snd] in *. apply rel_ok; [reflexivity|]. cbn [fst snd]. split; [eapply suffix_trans; eassumption | constructor; assumption].
Qed.

Section Elements.
  Context {S U : Type} (f : S -> U) (good : S -> Prop) (k k0 : kparser S) (p : parser U) (K : type_ok f good k k0 p).

  Lemma convert_ber a : good_any whole a ->
    rel f good (t_convert_item (kp_accept k) (kp_ber k) a) (t_convert_item (kp_accept k0) (kp_ber k0) a) (convert_item (ps_accept p) (ps_ber_content p) (dataA a)).
  Proof.
    intros [Ga Gd]. destruct K as (A & A0 & C & _). unfold t_convert_item, convert_item. cbn [dataA any_header any_data]. rewrite A, A0.
    destruct (ps_accept p _); [|apply rel_err; exact Gd]. rewrite bind_value'. eapply rel_bind; [apply C; assumption|].
    intros [r x] [_ G]. cbn [snd] in *. apply rel_ok; [reflexivity | exact G].
  Qed.
  Lemma convert_der a : good_any whole a ->
    rel f good (t_convert_item (kp_accept k) (kp_der k) a) (t_convert_item (kp_accept k0) (kp_der k0) a) (convert_item (ps_accept p) (ps_der_content p) (dataA a)).
  Proof.
    intros [Ga Gd]. destruct K as (A & A0 & C & _). unfold t_convert_item, convert_item. cbn [dataA any_header any_data]. rewrite A, A0.
    destruct (ps_accept p _); [|apply rel_err; exact Gd]. rewrite bind_value'. eapply rel_bind; [apply C; assumption|].
    intros [r x] [_ G]. cbn [snd] in *. apply rel_ok; [reflexivity | exact G].
  Qed.
  Lemma items_ber i : located whole i -> parse_ok (map f) (Forall good) i (k_collect_ber c k i) (k_collect_ber (off c) k0 i) (collect_ber p (in_data i)).
  Proof. intros L. apply collect_rel; [exact parsed_any_ber | exact convert_ber | exact L]. Qed.
  Lemma items_der i : located whole i -> parse_ok (map f) (Forall good) i (k_collect_der c k i) (k_collect_der (off c) k0 i) (collect_der p (in_data i)).
  Proof. intros L. apply collect_rel; [exact parsed_any_der | exact convert_der | exact L]. Qed.

  Lemma vec_contents h i : located whole i ->
    parse_ok (map f) (Forall good) i (kp_ber (k_vec c k) h i) (kp_ber (k_vec (off c) k0) h i) (vec_ber_content p (sh_fields h) (in_data i))
    /\ parse_ok (map f) (Forall good) i (kp_der (k_vec c k) h i) (kp_der (k_vec (off c) k0) h i) (vec_der_content p (sh_fields h) (in_data i)).
  Proof.
    intros L. cbn [k_vec k_default kp_ber kp_der t_vec_parser tp_ber tp_der kp_contents tp_accept]. unfold t_vec_content, vec_ber_content, vec_der_content.
    split; (apply rel_at; [exact L|]; intros _ _; destruct (blen (in_data i) =? 0);
      [apply rel_ok; [reflexivity|]; split; [apply suffix_refl; exact L | constructor]|]); [apply items_ber | apply items_der]; exact L.
  Qed.
  Lemma vec_ok : type_ok (map f) (Forall good) (k_vec c k) (k_vec (off c) k0) (vec_parser p).
  Proof. apply default_ok; try reflexivity. intros h i Hh L. destruct (vec_contents h i L). split; apply parse_content; assumption. Qed.

  Lemma array_ok n : type_ok (map f) (Forall good) (k_array c n k) (k_array (off c) n k0) (array_parser n p).
  Proof.
    apply default_ok; try reflexivity. intros h i Hh L. destruct (vec_contents h i L) as [V1 V2].
    cbn [tp_ber tp_der array_parser default_parser ps_ber_content ps_der_content codec_parser ber_content der_content].
    split; apply parse_content; unfold k_array_content, array_content, parse_ok;
      (eapply rel_bind; [first [exact V1 | exact V2]|]); intros [r v] [Sx G]; cbn [dataV fst snd] in *; rewrite map_length;
      (destruct (_ =? _)%nat; [apply rel_ok; [reflexivity | split; assumption] | apply rel_err; exact L]).
  Qed.

  Lemma set_ok of_list of_list' ber der :
    (forall v, map f (of_list v) = of_list' (map f v)) -> (forall v x, In x (of_list v) -> In x v) ->
    (forall h i, ber h i = let* _ := assert_constructed h in let* (rem, v) := collect_ber p i in Ok (rem, of_list' v)) ->
    (forall h i, der h i = let* _ := assert_constructed h in let* (rem, v) := collect_der p i in Ok (rem, of_list' v)) ->
    type_ok (map f) (Forall good) (k_set c of_list k) (k_set (off c) of_list k0) (default_parser (is_tag TagSet) ber der).
  Proof.
    intros M I Eb Ed. apply default_ok; try reflexivity. intros h i Hh L.
    cbn [tp_ber tp_der default_parser ps_ber_content ps_der_content codec_parser ber_content der_content]. rewrite Eb, Ed. unfold k_set_content.
    split; apply parse_content; (apply rel_at; [exact L|]; intros _ _); (eapply rel_bind; [first [apply items_ber | apply items_der]; exact L|]);
      intros [r v] [Sx G]; cbn [dataV fst snd] in *; (apply rel_ok; [unfold dataV; cbn [fst snd]; rewrite M; reflexivity|]); (split; [exact Sx|]);
      cbn [snd]; rewrite Forall_forall in *; eauto.
  Qed.
  Lemma setof_ok : type_ok (map f) (Forall good) (k_set c (fun l => l) k) (k_set (off c) (fun l => l) k0) (setof_parser p).
  Proof.
    apply (set_ok (fun l => l) (fun l => l)); auto; intros h i; unfold setof_ber_content, setof_der_content;
      (destruct (assert_constructed h); [|reflexivity..]); cbn [bind]; [destruct (collect_ber p i) as [[? ?]| | |] | destruct (collect_der p i) as [[? ?]| | |]]; reflexivity.
  Qed.

  Lemma insert_map (cmp : U -> U -> comparison) x l :
    map f (set_insert (fun x y => cmp (f x) (f y)) x l) = set_insert cmp (f x) (map f l).
  Proof. induction l as [|y l IH]; [reflexivity|]. cbn. destruct (cmp (f x) (f y)); cbn; [..|rewrite IH]; reflexivity. Qed.
  Lemma insert_in (cmp : S -> S -> comparison) x l y : In y (set_insert cmp x l) -> y = x \/ In y l.
  Proof.
    induction l as [|z l IH]; [intros [->|[]]; left; reflexivity|]. cbn. destruct (cmp x z); cbn; [intros [->|H]; auto..|].
    intros [->|H]; [auto|]. destruct (IH H); auto.
  Qed.
  Lemma btreeset_ok cmp :
    type_ok (map f) (Forall good) (k_set c (set_of_list (fun x y => cmp (f x) (f y))) k) (k_set (off c) (set_of_list (fun x y => cmp (f x) (f y))) k0) (btreeset_parser cmp p).
  Proof.
    apply (set_ok _ (set_of_list cmp)).
    - intros v. unfold set_of_list. change (@nil U) with (map f []). generalize (@nil S) as l.
      induction v as [|x v IH]; intros l; [reflexivity|]. cbn. rewrite IH, insert_map. reflexivity.
    - intros v x. unfold set_of_list.
      enough (G: forall l, In x (fold_left (fun s y => set_insert (fun a b => cmp (f a) (f b)) y s) v l) -> In x v \/ In x l) by (intros H; destruct (G _ H) as [|[]]; assumption).
      induction v as [|y v IH]; intros l H; [right; exact H|]. cbn in H. destruct (IH _ H) as [Q|Q]; [left; right; exact Q|].
      destruct (insert_in _ _ _ _ Q) as [->|Q2]; [left; left; reflexivity | right; exact Q2].
    - intros h i. unfold btreeset_content, setof_ber_content. destruct (assert_constructed h); reflexivity.
    - intros h i. unfold btreeset_content, setof_der_content. destruct (assert_constructed h); reflexivity.
  Qed.
  Lemma hashset_ok same :
    type_ok (map f) (Forall good) (k_set c (hash_collect (fun x y => same (f x) (f y))) k) (k_set (off c) (hash_collect (fun x y => same (f x) (f y))) k0) (hashset_parser same p).
  Proof.
    apply (set_ok _ (hash_collect same)).
    - intros v. unfold hash_collect. change (@nil U) with (map f []). generalize (@nil S) as l.
      induction v as [|x v IH]; intros l; [reflexivity|]. cbn. rewrite IH. f_equal. unfold hash_insert.
      assert (E: existsb (fun y => same (f x) (f y)) l = existsb (same (f x)) (map f l)) by (clear; induction l as [|y l IH]; [reflexivity|]; cbn; rewrite IH; reflexivity).
      rewrite <- E. destruct (existsb _ l); [reflexivity|]. rewrite map_app. reflexivity.
    - intros v x. unfold hash_collect.
      enough (G: forall l, In x (fold_left (hash_insert (fun a b => same (f a) (f b))) v l) -> In x v \/ In x l) by (intros H; destruct (G _ H) as [|[]]; assumption).
      induction v as [|y v IH]; intros l H; [right; exact H|]. cbn in H. destruct (IH _ H) as [Q|Q]; [left; right; exact Q|].
      unfold hash_insert in Q. destruct (existsb _ l); [right; exact Q|]. apply in_app_or in Q. destruct Q as [Q|[<-|[]]]; [right; exact Q | left; left; reflexivity].
    - reflexivity.
    - reflexivity.
  Qed.
End Elements.

Lemma any_sequence_ok : type_ok (map forget_any) (Forall (good_any whole)) (k_any_sequence c) (k_any_sequence (off c)) (any_items_parser TagSequence).
Proof.
  apply default_ok; try reflexivity. intros h i Hh L.
  cbn [tp_ber tp_der any_items_parser default_parser ps_ber_content ps_der_content codec_parser ber_content der_content].
  unfold k_any_items_content, any_items_content, try_collect.
  split; apply parse_content; (apply rel_at; [exact L|]; intros _ _);
    (apply (collect_rel forget_any (good_any whole)); [first [exact parsed_any_ber | exact parsed_any_der] | | exact L]); intros a G; (apply rel_ok; [reflexivity | exact G]).
Qed.

Lemma rel_at_value {A B T} (g : input * B -> T) (Q : input * B -> Prop) i (r : res A) (m m0 : A -> lres (input * B)) (r' : A -> res (bytes * T)) :
  located whole i -> (forall a, rel g Q (m a) (m0 a) (value' (r' a))) ->
  rel g Q (lbind (silent (at_input i r)) m) (lbind (silent (at_input i r)) m0) (value' (bind r r')).
Proof.
  intros L H. replace (value' (bind r r')) with (bind r (fun a => value' (r' a))) by (destruct r; reflexivity).
  apply rel_at; [exact L|]. intros a _. apply H.
Qed.

(** ** Strings *)

Lemma value_rest {B D} (m : res (bytes * B)) (k : B -> res D) : value' (let* (r, d) := m in let* v := k d in Ok (r, v)) = bind m (fun q => k (snd q)).
Proof. destruct m as [[r d]| | |]; try reflexivity. cbn. destruct (k d); reflexivity. Qed.
Lemma value_part {B E} (m : res (bytes * B)) (k : B -> res (bytes * E)) : value' (let* (r, d) := m in let* (_, v) := k d in Ok (r, v)) = bind m (fun q => value' (k (snd q))).
Proof. destruct m as [[r d]| | |]; try reflexivity. cbn. destruct (k d) as [[? ?]| | |]; reflexivity. Qed.
Lemma value_finish {B D} (m : res (bytes * B)) (k : B -> res D) : value' (let* (r, d) := m in let* v := k d in Ok (r, v)) = bind (value' m) k.
Proof. destruct m as [[r d]| | |]; try reflexivity. cbn. destruct (k d); reflexivity. Qed.
Lemma rel_eta {A B} (f : A -> B) P m m0 r : rel f P m m0 (bind r (fun x => Ok x)) -> rel f P m m0 r.
Proof. destruct r; intros H; exact H. Qed.
Section Strings.
  Context {T : Type} (g : segments T).
  Lemma seg_loop_rel (seg seg0 : sheader -> input -> lres (input * T)) seg' :
    (forall h i, header_located whole h -> located whole i -> content_ok (fun x => x) (fun _ => True) i (seg h i) (seg0 h i) (seg' (sh_fields h) (in_data i))) ->
    forall fuel i v, located whole i ->
    rel (fun x => x) (fun _ => True) (k_seg_loop c g seg fuel i v) (k_seg_loop (off c) g seg0 fuel i v) (seg_loop (sg_accept g) (sg_append g) seg' fuel (in_data i) v).
  Proof.
    intros K. induction fuel as [|fuel IH]; intros i v L; [apply rel_err; exact L|]. cbn [k_seg_loop seg_loop].
    destruct (blen (in_data i) =? 0). { apply rel_ok; [reflexivity | exact I]. }
    eapply rel_bind; [apply rel_close; [exact L | apply parsed_any_ber; exact L]|]. intros [r a] [Sx [Ga Gd]]. cbn [dataO fst snd dataA any_header any_data] in *. cbv zeta.
    destruct (_ =? TagEndOfContent); [apply rel_ok; [reflexivity | exact I]|].
    destruct (sg_accept g _); cbn [negb]; [|apply rel_err; exact Gd].
    destruct (blen (in_data (sa_data a)) =? 0); [apply IH; apply Sx|]. rewrite bind_value'.
    eapply rel_bind; [apply K; assumption|]. intros [r2 part] _. cbn [snd]. apply IH. apply Sx.
  Qed.
  Lemma prim_rel h i : located whole i -> content_ok (fun x => x) (fun _ => True) i
    (silent (s_plain_content (sg_prim g) h i)) (silent (s_plain_content (sg_prim g) h i)) (sg_prim g (sh_fields h) (in_data i)).
  Proof.
    intros L. apply quiet_ok; unfold s_plain_content; destruct (sg_prim g (sh_fields h) (in_data i)) as [[b x]| | |]; cbn; auto; try discriminate.
    intros q E. injection E as <-. apply suffix_refl. exact L.
  Qed.
  Lemma segmented_rel : forall limit h i, header_located whole h -> located whole i ->
    content_ok (fun x => x) (fun _ => True) i (k_segmented c g limit h i) (k_segmented (off c) g limit h i)
      (parse_ber_segmented (sg_accept g) (sg_default g) (sg_append g) (sg_prim g) limit (sh_fields h) (in_data i)).
  Proof.
    induction limit as [|limit IH]; intros h i Hh L; [apply rel_err; exact L|]. cbn [k_segmented parse_ber_segmented].
    destruct (blen (in_data i) =? 0); [apply rel_err; exact L|]. destruct (h_constructed (sh_fields h)).
    - assert (X: rel data2 (fun q => suffix whole i (fst q) /\ located whole (snd q))
        (if is_definite (h_length (sh_fields h)) then t_ber_object_content c h i MAX_RECURSION else silent (in_take_split i (blen (in_data i))))
        (if is_definite (h_length (sh_fields h)) then t_ber_object_content (off c) h i MAX_RECURSION else silent (in_take_split i (blen (in_data i))))
        (if is_definite (h_length (sh_fields h)) then ber_get_content (sh_fields h) (in_data i) else Ok ([], in_data i))).
      { destruct (is_definite (h_length (sh_fields h))).
        - generalize (content_rel h i MAX_RECURSION L). apply rel_weaken. intros q (S & D & _). split; assumption.
        - apply rel_silent. pose proof (take_split_sim whole i (blen (in_data i)) W L ltac:(lia)) as Q.
          rewrite (skipn_all2 (in_data i)), (firstn_all2 (in_data i)) in Q by (unfold blen; lia). revert Q. apply sim_weaken. intros q ((S & D & _) & _). split; assumption. }
      unfold content_ok. rewrite value_rest.
      eapply rel_bind; [exact X|]. intros [r d] [S D]. cbn [data2 fst snd] in *.
      apply rel_eta.
      eapply rel_bind; [apply seg_loop_rel; [exact IH | exact D]|]. intros v _. apply rel_ok; [reflexivity|]. split; [exact S | exact I].
    - unfold content_ok. rewrite value_part.
      eapply rel_bind; [apply content_rel; exact L|]. intros [r d] (S & D & _). cbn [data2 fst snd] in *.
      apply rel_eta.
      eapply rel_bind; [apply prim_rel; exact D|]. intros [r2 x] _. cbn [fst snd]. apply rel_ok; [reflexivity|]. split; [exact S | exact I].
  Qed.
  Lemma string_contents {U} (finish : T -> res U) h i : header_located whole h -> located whole i ->
    content_ok (fun x => x) (fun _ => True) i (k_string_ber c g finish h i) (k_string_ber (off c) g finish h i) (string_ber g finish (sh_fields h) (in_data i)).
  Proof.
    intros Hh L. unfold k_string_ber, string_ber, content_ok.
    set (q := if negb (h_constructed (sh_fields h)) then sg_prim g (sh_fields h) (in_data i) else _).
    rewrite value_finish.
    eapply rel_bind.
    { instantiate (1 := fun p => suffix whole i (fst p) /\ True). instantiate (1 := fun p => snd p).
      unfold q. destruct (negb (h_constructed (sh_fields h))); [apply prim_rel; exact L | apply segmented_rel; assumption]. }
    intros [r d] [S _]. cbn [fst snd] in *.
    apply rel_eta.
    apply rel_at; [apply S|]. intros x _. apply rel_ok; [reflexivity|]. split; [exact S | exact I].
  Qed.
End Strings.
Lemma string_ok {T U} tag (g : segments T) (finish : T -> res U) :
  type_ok (fun x => x) (fun _ => True) (k_string c tag g finish) (k_string (off c) tag g finish) (string_parser tag g finish).
Proof.
  apply default_ok; try reflexivity. intros h i Hh L. split; [apply string_contents; assumption|].
  cbn [tp_der string_parser default_parser ps_der_content codec_parser der_content]. unfold k_string_der, content_ok.
  apply rel_at_value; [exact L|]. intros _. apply string_contents; assumption.
Qed.
(** ** Tags, Option, Alias *)

Section One.
  Context {S U : Type} (f : S -> U) (good : S -> Prop) (k k0 : kparser S) (p : parser U) (K : type_ok f good k k0 p).

  Lemma explicit_ok cl n : type_ok f good (k_explicit c cl n k) (k_explicit (off c) cl n k0) (explicit_parser cl n p).
  Proof.
    apply default_ok; try reflexivity. intros h i Hh L. destruct (proj2 (proj2 (proj2 K)) i L) as [B D].
    cbn [tp_ber tp_der explicit_parser default_parser ps_ber_content ps_der_content codec_parser ber_content der_content].
    unfold t_explicit_content, explicit_content.
    split; apply parse_content; do 3 (apply rel_at; [exact L|]; intros _ _); assumption.
  Qed.
  Lemma implicit_ok cl n : type_ok f good (k_implicit c cl n k) (k_implicit (off c) cl n k0) (implicit_parser cl n p).
  Proof.
    apply default_ok; try reflexivity. intros h i Hh L. destruct (proj1 (proj2 (proj2 K)) h i Hh L) as [B D].
    cbn [tp_ber tp_der implicit_parser default_parser ps_ber_content ps_der_content codec_parser ber_content der_content].
    unfold k_implicit_content, implicit_content, content_ok.
    split; (apply rel_at_value; [exact L|]); intros _; assumption.
  Qed.
  Lemma tagged_ok g : type_ok f good (k_tagged c g k) (k_tagged (off c) g k0) (tagged_parser g p).
  Proof. unfold k_tagged, tagged_parser. destruct (tg_kind g); [apply explicit_ok | apply implicit_ok]. Qed.
  Lemma alias_ok : type_ok f good (k_alias c k) (k_alias (off c) k0) (alias_parser p).
  Proof. destruct K as (A & A0 & C & _). apply default_ok; try reflexivity; [exact A | exact A0 | exact C]. Qed.

  Lemma option_contents (ct ct0 : sheader -> input -> lres (input * S)) (ct' : header -> bytes -> res (bytes * U)) h i :
    (forall i, located whole i -> content_ok f good i (ct h i) (ct0 h i) (ct' (sh_fields h) (in_data i))) -> located whole i ->
    parse_ok (option_map f) (opt_good good) i (t_option_content c (kp_accept k) ct h i) (t_option_content (off c) (kp_accept k0) ct0 h i)
      (option_content (ps_accept p) ct' (sh_fields h) (in_data i)).
  Proof.
    intros C L. destruct K as (A & A0 & _). unfold t_option_content, option_content. rewrite A, A0.
    destruct (ps_accept p _); [|apply rel_ok; [reflexivity|]; split; [apply suffix_refl; exact L | exact I]].
    eapply rel_bind; [apply content_rel; exact L|]. intros [r d] D. cbn [data2 fst snd] in *. rewrite bind_value'.
    eapply rel_bind; [apply C; apply D|]. intros [r2 x] [_ G]. cbn [fst snd] in *. apply rel_ok; [reflexivity|]. split; [apply D | exact G].
  Qed.
  Lemma option_objects s (hd hd0 : input -> lres (input * sheader)) hd' (ct ct0 : sheader -> input -> lres (input * S)) (ct' : header -> bytes -> res (bytes * U)) i :
    (forall i, located whole i -> rel dataH (at_layout i) (hd i) (hd0 i) (hd' (in_data i))) ->
    (forall h i, header_located whole h -> located whole i -> content_ok f good i (ct h i) (ct0 h i) (ct' (sh_fields h) (in_data i))) -> located whole i ->
    parse_ok (option_map f) (opt_good good) i (t_option_parse c s hd (kp_accept k) ct i) (t_option_parse (off c) s hd0 (kp_accept k0) ct0 i)
      (option_parse hd' (ps_accept p) ct' (in_data i)).
  Proof.
    intros H C L. apply rel_trace; [exact L| |intros q [Sx _]; apply Sx]. unfold option_parse.
    assert (N: parse_ok (option_map f) (opt_good good) i (silent (SOk (i, None))) (silent (SOk (i, None))) (Ok (in_data i, None))).
    { apply rel_ok; [reflexivity|]. split; [apply suffix_refl; exact L | exact I]. }
    destruct (blen (in_data i) =? 0); [exact N|]. eapply rel_bind; [apply H; exact L|]. intros [r h] [Hl Sx]. cbn [dataH fst snd] in *.
    rewrite (proj1 K), (proj1 (proj2 K)). destruct (ps_accept p _); [|exact N].
    eapply rel_bind; [apply content_rel; apply Sx|]. intros [r2 d] D. cbn [data2 fst snd] in *. rewrite bind_value'.
    eapply rel_bind.
    { apply (parse_content (option_map f) (opt_good good) d). apply option_contents; [|apply D]. intros j Lj. apply C; [eapply layout_header; exact Hl | exact Lj]. }
    intros [r3 x] [_ G]. cbn [fst snd] in *. apply rel_ok; [reflexivity|]. split; [|exact G]. eapply suffix_trans; [exact Sx | apply D].
  Qed.
  Lemma option_ok : type_ok (option_map f) (opt_good good) (k_option c k) (k_option (off c) k0) (option_parser p).
  Proof.
    destruct K as (A & A0 & C & _). split; [exact A|]. split; [exact A0|]. split.
    - intros h i Hh L. split; apply parse_content; apply option_contents; auto; intros j Lj; apply C; assumption.
    - intros i L. split.
      + apply option_objects; [exact header_rel | intros; apply C; assumption | exact L].
      + apply option_objects; [exact header_der_rel | intros; apply C; assumption | exact L].
  Qed.
End One.

(** ** Tuples and structs *)

Definition field_ok {S U} (f : S -> U) (good : S -> Prop) (k k0 : kfield S) (p : fields U) : Prop :=
  forall i, located whole i -> parse_ok f good i (k i) (k0 i) (p (in_data i)).

Lemma no_field_ok (good : unit -> Prop) : good tt -> field_ok (fun x => x) good k_no_field k_no_field no_field.
Proof. intros G i L. apply rel_ok; [reflexivity|]. split; [apply suffix_refl; exact L | exact G]. Qed.
Lemma add_field_ok {A B A' B'} (f : A -> A') (g : B -> B') (P : A -> Prop) (Q : B -> Prop) (R : A * B -> Prop) k k0 (p : bytes -> res (bytes * A')) j j0 q :
  (forall v, P (fst v) -> Q (snd v) -> R v) -> field_ok f P k k0 p -> field_ok g Q j j0 q ->
  field_ok (fun v => (f (fst v), g (snd v))) R (k_field k j) (k_field k0 j0) (field p q).
Proof.
  intros H K J i L. unfold k_field, field. eapply rel_bind; [apply K; exact L|]. intros [r x] [Sx Gx]. cbn [dataV fst snd] in *.
  eapply rel_bind; [apply J; apply Sx|]. intros [r2 y] [Sy Gy]. cbn [dataV fst snd] in *. apply rel_ok; [reflexivity|].
  split; [eapply suffix_trans; eassumption | apply H; assumption].
Qed.
Lemma tagged_optional_ok {A B} (f : A -> B) (P : A -> Prop) hd hd0 hd' n k k0 p :
  (forall i, located whole i -> rel dataH (at_layout i) (hd i) (hd0 i) (hd' (in_data i))) -> field_ok f P k k0 p ->
  field_ok (option_map f) (opt_good P) (k_tagged_optional hd n k) (k_tagged_optional hd0 n k0) (tagged_optional hd' n p).
Proof.
  intros H K i L. unfold k_tagged_optional, tagged_optional.
  assert (N: parse_ok (option_map f) (opt_good P) i (silent (SOk (i, None))) (silent (SOk (i, None))) (Ok (in_data i, None))).
  { apply rel_ok; [reflexivity|]. split; [apply suffix_refl; exact L | exact I]. }
  destruct (blen (in_data i) =? 0); [exact N|]. eapply rel_bind; [apply H; exact L|]. intros [r h] _. cbn [dataH fst snd] in *.
  destruct (_ =? n); [|exact N]. eapply rel_bind; [apply K; exact L|]. intros [r2 x] [Sx Gx]. cbn [dataV fst snd] in *.
  apply rel_ok; [reflexivity|]. split; assumption.
Qed.
Lemma with_default_ok {A B} (f : A -> B) (P : A -> Prop) d k k0 p : P d -> field_ok (option_map f) (opt_good P) k k0 p ->
  field_ok f P (k_with_default d k) (k_with_default d k0) (with_default (f d) p).
Proof.
  intros Pd K i L. unfold k_with_default, with_default. eapply rel_bind; [apply K; exact L|]. intros [r o] [Sx Go]. cbn [dataV fst snd] in *.
  apply rel_ok; [unfold dataV; destruct o; reflexivity|]. split; [exact Sx|]. destruct o; assumption.
Qed.
Lemma tuple_ok {S U} (f : S -> U) P k k0 p j j0 q : field_ok f P k k0 p -> field_ok f P j j0 q ->
  type_ok f P (k_tuple c k j) (k_tuple (off c) k0 j0) (tuple_parser p q).
Proof.
  intros K J. apply default_ok; try reflexivity. intros h i Hh L. split; apply parse_content; [apply K | apply J]; exact L.
Qed.
Lemma struct_ok {S U} (f : S -> U) P n k k0 p j j0 q : field_ok f P k k0 p -> field_ok f P j j0 q ->
  type_ok f P (k_struct c n k j) (k_struct (off c) n k0 j0) (struct_parser n p q).
Proof.
  intros K J. apply default_ok; try reflexivity. intros h i Hh L.
  cbn [tp_ber tp_der struct_parser default_parser ps_ber_content ps_der_content codec_parser ber_content der_content].
  unfold k_struct_content, struct_content. split; apply parse_content; (apply rel_at; [exact L|]; intros _ _); [apply K | apply J]; exact L.
Qed.

(** ** Choices *)

Definition variant_ok {S U} (f : S -> U) (good : S -> Prop) (k k0 : kvariant S) (p : variants U) : Prop :=
  forall h i, header_located whole h -> located whole i -> content_ok f good i (k h i) (k0 h i) (p (sh_fields h) (in_data i)).

Lemma no_variant_ok (good : Empty_set -> Prop) : variant_ok (fun x => x) good k_no_variant k_no_variant no_variant.
Proof. intros h i Hh L. apply rel_err. exact L. Qed.

Lemma content_map {A B A' B'} (f : A -> A') (g : B -> B') (a : A -> B) (a' : A' -> B') (P : A -> Prop) (Q : B -> Prop) i m m0 r :
  (forall x, g (a x) = a' (f x)) -> (forall x, P x -> Q (a x)) -> content_ok f P i m m0 r ->
  content_ok g Q i (let! (rem, x) := m in silent (SOk (rem, a x))) (let! (rem, x) := m0 in silent (SOk (rem, a x))) (let* (rem, x) := r in Ok (rem, a' x)).
Proof.
  intros E H K. unfold content_ok. replace (value' (let* (rem, x) := r in Ok (rem, a' x))) with (bind (value' r) (fun x => Ok (a' x))) by (destruct r as [[? ?]| | |]; reflexivity).
  eapply rel_bind; [exact K|]. intros [rem x] [Sx G]. cbn [fst snd] in *. apply rel_ok; [cbn [snd]; symmetry; apply E|]. split; [exact Sx | apply H; exact G].
Qed.

Definition sum_map {A B A' B'} (f : A -> A') (g : B -> B') (v : A + B) : A' + B' := match v with inl x => inl (f x) | inr y => inr (g y) end.
Definition sum_good {A B} (P : A -> Prop) (Q : B -> Prop) (v : A + B) : Prop := match v with inl x => P x | inr y => Q y end.

Section Variant.
  Context {S U S' U' : Type} (f : S -> U) (g : S' -> U') (P : S -> Prop) (Q : S' -> Prop) (k k0 : kparser S) (p : parser U) (K : type_ok f P k k0 p)
    (j j0 : kvariant S') (q : variants U') (J : variant_ok g Q j j0 q).
  Lemma rest_ok h i : header_located whole h -> located whole i ->
    content_ok (sum_map f g) (sum_good P Q) i (let! (rem, y) := j h i in silent (SOk (rem, inr y))) (let! (rem, y) := j0 h i in silent (SOk (rem, inr y)))
      (let* (rem, y) := q (sh_fields h) (in_data i) in Ok (rem, inr y)).
  Proof. intros Hh L. apply (content_map g (sum_map f g) inr inr Q); [reflexivity | auto | apply J; assumption]. Qed.
  Lemma tagged_variant_ok kd n :
    variant_ok (sum_map f g) (sum_good P Q) (k_tagged_variant kd n (kp_parse_ber k) (kp_ber k) j) (k_tagged_variant kd n (kp_parse_ber k0) (kp_ber k0) j0)
      (tagged_variant kd n (ps_parse_ber p) (ps_ber_content p) q)
    /\ variant_ok (sum_map f g) (sum_good P Q) (k_tagged_variant kd n (kp_parse_der k) (kp_der k) j) (k_tagged_variant kd n (kp_parse_der k0) (kp_der k0) j0)
      (tagged_variant kd n (ps_parse_der p) (ps_der_content p) q).
  Proof.
    destruct K as (_ & _ & C & O).
    split; intros h i Hh L; unfold k_tagged_variant, tagged_variant; (destruct (_ =? n); [|apply rest_ok; assumption]);
      (apply (content_map f (sum_map f g) inl inl P); [reflexivity | auto|]); (destruct kd; [apply parse_content; apply O; exact L | apply C; assumption]).
  Qed.
  Lemma untagged_variant_ok :
    variant_ok (sum_map f g) (sum_good P Q) (k_untagged_variant (kp_accept k) (kp_ber k) j) (k_untagged_variant (kp_accept k0) (kp_ber k0) j0)
      (untagged_variant (ps_accept p) (ps_ber_content p) q)
    /\ variant_ok (sum_map f g) (sum_good P Q) (k_untagged_variant (kp_accept k) (kp_der k) j) (k_untagged_variant (kp_accept k0) (kp_der k0) j0)
      (untagged_variant (ps_accept p) (ps_der_content p) q).
  Proof.
    destruct K as (A & A0 & C & O).
    split; intros h i Hh L; unfold k_untagged_variant, untagged_variant; rewrite A, A0; (destruct (ps_accept p _); [|apply rest_ok; assumption]);
      (apply (content_map f (sum_map f g) inl inl P); [reflexivity | auto | apply C; assumption]).
  Qed.
End Variant.
Lemma choice_ok {S U} (f : S -> U) P kd a a0 a' k k0 p j j0 q : (forall n, a n = a' n) -> (forall n, a0 n = a' n) -> variant_ok f P k k0 p -> variant_ok f P j j0 q ->
  type_ok f P (k_choice c kd a k j) (k_choice (off c) kd a0 k0 j0) (choice_parser kd a' p q).
Proof.
  intros A A0 K J. apply default_ok; try reflexivity; [exact A | exact A0|]. intros h i Hh L.
  cbn [tp_ber tp_der choice_parser default_parser ps_ber_content ps_der_content codec_parser ber_content der_content].
  unfold k_choice_content, choice_content, content_ok. destruct kd as [[|]|];
    try (split; [apply K | apply J]; assumption). split; (apply rel_at_value; [exact L|]); intros _; [apply K | apply J]; assumption.
Qed.

(** ** All types *)

Lemma type_weaken {S U} (f : S -> U) (P Q : S -> Prop) k k0 p : (forall x, P x -> Q x) -> type_ok f P k k0 p -> type_ok f Q k k0 p.
Proof.
  intros H (A & A0 & C & O). split; [exact A|]. split; [exact A0|]. split.
  - intros h i Hh L. destruct (C h i Hh L) as [B D]. split; [revert B | revert D]; (apply rel_weaken; intros q [Sx G]; split; auto).
  - intros i L. destruct (O i L) as [B D]. split; [revert B | revert D]; (apply rel_weaken; intros q [Sx G]; split; auto).
Qed.
Lemma field_weaken {S U} (f : S -> U) (P Q : S -> Prop) k k0 p : (forall x, P x -> Q x) -> field_ok f P k k0 p -> field_ok f Q k k0 p.
Proof. intros H K i L. generalize (K i L). apply rel_weaken. intros q [Sx G]; split; auto. Qed.
Lemma variant_weaken {S U} (f : S -> U) (P Q : S -> Prop) k k0 p : (forall x, P x -> Q x) -> variant_ok f P k k0 p -> variant_ok f Q k k0 p.
Proof. intros H K h i Hh L. generalize (K h i Hh L). apply rel_weaken. intros q [Sx G]; split; auto. Qed.

Definition inside {S} (inputs : S -> list input) (v : S) : Prop := Forall (located whole) (inputs v).

Lemma inside_list {S} (g : S -> list input) v : Forall (inside g) v -> inside (flat_map g) v.
Proof. intros H. induction H as [|x v Hx Hv IH]; [constructor|]. unfold inside. cbn. apply Forall_app. split; assumption. Qed.
Lemma inside_option {S} (g : S -> list input) o : opt_good (inside g) o -> inside (option_inputs g) o.
Proof. destruct o; [intros H; exact H | constructor]. Qed.
Lemma inside_pair {A B} (g : A -> list input) (h : B -> list input) v : inside g (fst v) -> inside h (snd v) -> inside (fun v => g (fst v) ++ h (snd v)) v.
Proof. intros G H. apply Forall_app. split; assumption. Qed.
Lemma inside_constant {S} (g : S -> list input) d : g d = [] -> inside g d.
Proof. intros E. unfold inside. rewrite E. constructor. Qed.

Theorem types_ok :
  (forall S U (t : kty S U), constant_defaults t -> type_ok (kbare t) (inside (kinputs t)) (kparser_of c t) (kparser_of (off c) t) (plain_of t))
  /\ (forall S U (fs : kfields S U), constant_fields fs ->
      field_ok (kbare_fields fs) (inside (kinputs_fields fs)) (kber_of c fs) (kber_of (off c) fs) (plain_ber fs)
      /\ field_ok (kbare_fields fs) (inside (kinputs_fields fs)) (kder_of c fs) (kder_of (off c) fs) (plain_der fs))
  /\ (forall S U (vs : kvariants S U), constant_variants vs -> forall kd,
      (forall n, kaccept_of c kd vs n = plain_accept kd vs n) /\ (forall n, kaccept_of (off c) kd vs n = plain_accept kd vs n)
      /\ variant_ok (kbare_variants vs) (inside (kinputs_variants vs)) (kber_variants c kd vs) (kber_variants (off c) kd vs) (plain_ber_variants kd vs)
      /\ variant_ok (kbare_variants vs) (inside (kinputs_variants vs)) (kder_variants c kd vs) (kder_variants (off c) kd vs) (plain_der_variants kd vs)).
Proof.
  apply kty_mutind.
  - intros _. eapply type_weaken; [|exact any_ok]. intros a G. apply good_any_inputs. exact G.
  - intros T p _. eapply type_weaken; [|exact (plain_ok p)]. constructor.
  - intros _. eapply type_weaken; [|exact integer_ok]. constructor.
  - intros T U tag g finish _. eapply type_weaken; [|exact (string_ok tag g finish)]. constructor.
  - intros S U t IH D. eapply type_weaken; [apply inside_list | apply vec_ok; apply IH; exact D].
  - intros S U n t IH D. eapply type_weaken; [apply inside_list | apply array_ok; apply IH; exact D].
  - intros S U t IH D. eapply type_weaken; [apply inside_list | apply setof_ok; apply IH; exact D].
  - intros S U cmp t IH D. eapply type_weaken; [apply inside_list | apply btreeset_ok; apply IH; exact D].
  - intros S U same t IH D. eapply type_weaken; [apply inside_list | apply hashset_ok; apply IH; exact D].
  - intros _. eapply type_weaken; [|exact any_sequence_ok]. intros v G. apply inside_list. eapply Forall_impl; [|exact G].
    intros a. apply good_any_inputs.
  - intros S U g t IH D. apply tagged_ok. apply IH. exact D.
  - intros S U t IH D. eapply type_weaken; [apply inside_option | apply option_ok; apply IH; exact D].
  - intros S U t IH D. apply alias_ok. apply IH. exact D.
  - intros S U fs IH D. destruct (IH D). apply tuple_ok; assumption.
  - intros S U n fs IH D. destruct (IH D). apply struct_ok; assumption.
  - intros S U k vs IH D. destruct (IH D k) as (A & A0 & B & B2). apply choice_ok; assumption.
  - intros _. split; apply no_field_ok; constructor.
  - intros S U S' U' t IH fs IH2 [D D2]. specialize (IH D). destruct (IH2 D2) as [F G]. destruct IH as (_ & _ & _ & O).
    split; (eapply add_field_ok; [apply inside_pair | | eassumption]); intros i L; apply O; exact L.
  - intros S U S' U' d t IH fs IH2 (E & D & D2). specialize (IH D). destruct (IH2 D2) as [F G]. apply option_ok in IH. destruct IH as (_ & _ & _ & O).
    split; (eapply add_field_ok; [apply inside_pair | | eassumption]); (apply with_default_ok; [apply inside_constant; exact E|]); intros i L; apply O; exact L.
  - intros S U S' U' g t IH fs IH2 (D & D2). specialize (IH D). destruct (IH2 D2) as [F G]. apply (fun H => tagged_ok _ _ _ _ _ H g) in IH. destruct IH as (_ & _ & _ & O).
    split; (eapply add_field_ok; [apply inside_pair | | eassumption]); (eapply field_weaken; [apply inside_option|]);
      (apply tagged_optional_ok; [first [exact header_rel | exact header_der_rel]|]); intros i L; apply O; exact L.
  - intros S U S' U' g d t IH fs IH2 (E & D & D2). specialize (IH D). destruct (IH2 D2) as [F G]. apply (fun H => tagged_ok _ _ _ _ _ H g) in IH. destruct IH as (_ & _ & _ & O).
    split; (eapply add_field_ok; [apply inside_pair | | eassumption]); (apply with_default_ok; [apply inside_constant; exact E|]);
      (apply tagged_optional_ok; [first [exact header_rel | exact header_der_rel]|]); intros i L; apply O; exact L.
  - intros _ kd. split; [reflexivity|]. split; [reflexivity|]. split; apply no_variant_ok.
  - intros S U S' U' n t IH vs IH2 (D & D2) kd. specialize (IH D). destruct (IH2 D2 kd) as (A & A0 & B & C). pose proof IH as (A1 & A2 & _).
    split; [intros x; cbn; rewrite A, ?A1; reflexivity|]. split; [intros x; cbn; rewrite A0, ?A2; reflexivity|].
    assert (M: forall v, sum_good (inside (kinputs t)) (inside (kinputs_variants vs)) v -> inside (kinputs_variants (KVariant n t vs)) v).
    { intros [x|y] H; exact H. }
    destruct kd as [kd|]; (split; (eapply variant_weaken; [exact M|])).
    + apply (proj1 (tagged_variant_ok _ _ _ _ _ _ _ IH _ _ _ B kd n)).
    + apply (proj2 (tagged_variant_ok _ _ _ _ _ _ _ IH _ _ _ C kd n)).
    + apply (proj1 (untagged_variant_ok _ _ _ _ _ _ _ IH _ _ _ B)).
    + apply (proj2 (untagged_variant_ok _ _ _ _ _ _ _ IH _ _ _ C)).
Qed.
End Kinds.
