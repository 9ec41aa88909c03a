(** C45, C81: the newer readers ([parse_ber], [parse_der]) and the older ones ([from_ber], [from_der]) agree,
    and what is read as DER is read as BER. *)
From Verif Require Import Base MHeader MEncode SHeader PArith PHeader PEncode MBer SBer PBer PIter PCodec PropBer.
From Verif Require Import MInt SInt MSeg SSeg MOid MText SText PropText.
From Verif Require Import MReal.
From Verif Require Import MTime STime MCont SCont PCont SBase PBase PTypes PropTag PropItems.

(** ** Which types *)

(** The contents reader of [t] accepts headers of class [c] and number [n]: only an explicit tag looks at the
    number, after looking at the class. *)
Fixpoint retag_ok {A} (c : class) (n : N) (t : ty A) : Prop :=
  match t with
  | TExplicit c' n' _ => c = c' -> n = n'
  | TImplicit c' _ t' => c = c' -> retag_ok c n t'
  | _ => True
  end.

(** Types other than arrays, an implicit tag over an explicit one being the same tag (or never read). *)
Fixpoint ber_same {A} (t : ty A) : Prop :=
  match t with
  | TBase _ => True
  | TArray _ _ => False
  | TVec t => ber_same t
  | TSetOf t => ber_same t
  | TBTreeSet _ t => ber_same t
  | TExplicit _ _ t => ber_same t
  | TImplicit c n t => retag_ok c n t /\ ber_same t
  end.

(** Types whose contents are the same in BER and in DER. *)
Definition base_one_form {A} (b : base A) : Prop :=
  match b with BNull | BSlice | BOid | BStr | BSequence | BSet | BUtcTime => True | _ => False end.
Fixpoint one_form {A} (t : ty A) : Prop :=
  match t with TBase b => base_one_form b | TImplicit _ _ t => one_form t | _ => False end.

(** Where everything read by [parse_der] is read by [from_der], and the other way round. *)
Fixpoint der_sub {A} (t : ty A) : Prop :=
  match t with
  | TBase b => match b with BBits => False | _ => True end
  | TArray _ _ => False
  | TVec t => der_sub t
  | TSetOf t => der_sub t
  | TBTreeSet _ t => der_sub t
  | TExplicit _ _ t => der_sub t
  | TImplicit c n t => retag_ok c n t /\ ber_same t
  end.
Fixpoint der_sup {A} (t : ty A) : Prop :=
  match t with
  | TBase b => match b with BEnum => False | _ => True end
  | TArray _ _ | TVec _ | TSetOf _ => False
  | TBTreeSet _ t => der_sup t
  | TExplicit _ _ t => der_sup t
  | TImplicit c n t => one_form t /\ retag_ok c n t /\ ber_same t
  end.

(** ** Contents *)

Lemma parser_regular {A} (t : ty A) : regular (parser_of t).
Proof. destruct t; cbn [parser_of]; try apply default_regular. Qed.

Lemma class_num_inj c c' : class_num c = class_num c' -> c = c'.
Proof. destruct c, c'; cbn; intros E; congruence. Qed.

Lemma base_header_free {A} (b : base A) : header_free (codec_parser (base_codec b)).
Proof.
  destruct b as [| |w|w| | | | | | |k| | | | | | | |];
    try (match goal with |- header_free (codec_parser (base_codec ?b)) =>
           exact (bs_header_free _ _ _ _ _ (base_types_sound b I)) end).
  - intros h h' d K L. cbn. unfold int_der_content, int_ber_content, assert_primitive. rewrite K. auto.
  - intros h h' d K L. cbn. unfold uint_der_content, uint_ber_content, assert_primitive. rewrite K. auto.
Qed.

Lemma base_accepts {A} (b : base A) : accept_tag (base_codec b) (base_tag b) = true.
Proof. destruct b; try reflexivity; apply N.eqb_refl. Qed.

Lemma own_tag_accepted {A} (t : ty A) : ber_same t -> ps_accept (parser_of t) (lg_tag (legacy_of t)) = true.
Proof.
  destruct t; cbn [ber_same]; intros H; try contradiction; try (apply N.eqb_refl); try reflexivity. apply base_accepts.
Qed.

Lemma own_tag_ok {A} (t : ty A) c : ber_same t -> retag_ok c (lg_tag (legacy_of t)) t.
Proof.
  destruct t; cbn [ber_same retag_ok legacy_of explicit_legacy implicit_legacy lg_tag]; try tauto.
  intros [H _] ->. exact H.
Qed.

(** Renumbering a header does not matter to the contents readers. *)
Lemma retag_contents {A} (t : ty A) h n d :
  retag_ok (h_class h) (h_tag h) t -> retag_ok (h_class h) n t ->
  ps_ber_content (parser_of t) (with_tag h n) d = ps_ber_content (parser_of t) h d
  /\ ps_der_content (parser_of t) (with_tag h n) d = ps_der_content (parser_of t) h d.
Proof.
  revert h n d. induction t as [A b|A t IH|A m t IH|A t IH|A cmp t IH|A c m t IH|A c m t IH]; cbn [retag_ok]; intros h n d H1 H2.
  - apply base_header_free; reflexivity.
  - apply vec_header_free; reflexivity.
  - apply array_header_free; reflexivity.
  - apply setof_header_free; reflexivity.
  - apply btreeset_header_free; reflexivity.
  - cbn. unfold explicit_content, assert_constructed, check_class, check_tag. cbn [with_tag h_constructed h_class h_tag].
    destruct (N.eqb_spec (class_num (h_class h)) (class_num c)) as [E|E]; [|destruct (h_constructed h); auto].
    apply class_num_inj in E. rewrite (H1 E), <- (H2 E). auto.
  - cbn. unfold implicit_content, check_class. cbn [with_tag h_class].
    destruct (N.eqb_spec (class_num (h_class h)) (class_num c)) as [E|E]; [|auto].
    apply class_num_inj in E. cbn [bind]. apply IH; auto.
Qed.

(** [reads_all] with one reader or another. *)
Lemma reads_all_imp {T} (p q : bytes -> res (bytes * T)) i vs :
  (forall i rem v, bytes_ok i -> p i = Ok (rem, v) -> q i = Ok (rem, v) /\ bytes_ok rem) ->
  bytes_ok i -> reads_all p i vs -> reads_all q i vs.
Proof.
  intros H Hi R. induction R as [|i rem v vs Hn E R IH]; [constructor|].
  destruct (H _ _ _ Hi E) as [Eq Hr]. econstructor; [exact Hn|exact Eq|exact (IH Hr)].
Qed.

Lemma typed_parse_ber {A} (t : ty A) i rem v :
  ps_parse_ber (parser_of t) i = Ok (rem, v) <->
  exists a r, parse_ber_any i = Ok (rem, a) /\ ps_accept (parser_of t) (h_tag (any_header a)) = true
    /\ ps_ber_content (parser_of t) (any_header a) (any_data a) = Ok (r, v).
Proof.
  rewrite (proj1 (parser_regular t)). exact (default_parse_ber_ok _ _ (ps_der_content (parser_of t)) i rem v).
Qed.
Lemma typed_parse_der {A} (t : ty A) i rem v : bytes_ok i ->
  (ps_parse_der (parser_of t) i = Ok (rem, v) <->
   exists a r, parse_der_any i = Ok (rem, a) /\ ps_accept (parser_of t) (h_tag (any_header a)) = true
     /\ ps_der_content (parser_of t) (any_header a) (any_data a) = Ok (r, v)).
Proof.
  intros Hi. rewrite (proj2 (parser_regular t)). exact (default_parse_der_ok _ (ps_ber_content (parser_of t)) _ i rem v Hi).
Qed.

(** What is left over is octets again. *)
Lemma typed_rest_ber {A} (t : ty A) i rem v : bytes_ok i -> ps_parse_ber (parser_of t) i = Ok (rem, v) -> bytes_ok rem.
Proof. intros Hi E. apply typed_parse_ber in E as (a & r & E & _). apply (any_ber_object _ _ _ Hi E). Qed.
Lemma typed_rest_der {A} (t : ty A) i rem v : bytes_ok i -> ps_parse_der (parser_of t) i = Ok (rem, v) -> bytes_ok rem.
Proof. intros Hi E. apply typed_parse_der in E as (a & r & E & _); [|exact Hi]. apply (any_der_object _ _ _ Hi E). Qed.

Lemma setof_ber_ok {T} (P : parser T) h d r w : regular P -> bytes_ok d ->
  (setof_ber_content P h d = Ok (r, w) <-> h_constructed h = true /\ r = [] /\ reads_all (ps_parse_ber P) d w).
Proof.
  intros R Hd. unfold setof_ber_content. rewrite <- assert_constructed_ok.
  destruct (assert_constructed h) as [[]| | |]; cbn [bind]; try (split; [discriminate|intros [E _]; discriminate]).
  rewrite collect_ber_ok by assumption. tauto.
Qed.
Lemma setof_der_ok {T} (P : parser T) h d r w : regular P -> bytes_ok d ->
  (setof_der_content P h d = Ok (r, w) <-> h_constructed h = true /\ r = [] /\ reads_all (ps_parse_der P) d w).
Proof.
  intros R Hd. unfold setof_der_content. rewrite <- assert_constructed_ok.
  destruct (assert_constructed h) as [[]| | |]; cbn [bind]; try (split; [discriminate|intros [E _]; discriminate]).
  rewrite collect_der_ok by assumption. tauto.
Qed.

Lemma check_class_ok h c : check_class h c = Ok tt <-> h_class h = c.
Proof.
  unfold check_class. destruct (N.eqb_spec (class_num (h_class h)) (class_num c)) as [E|E].
  - apply class_num_inj in E. tauto.
  - split; [discriminate|congruence].
Qed.
Lemma check_tag_ok h n : check_tag h n = Ok tt <-> h_tag h = n.
Proof. unfold check_tag, is_tag. destruct (N.eqb_spec (h_tag h) n); split; congruence. Qed.

Lemma explicit_content_ok {T} c n (p : bytes -> res (bytes * T)) h d r v :
  explicit_content c n p h d = Ok (r, v) <->
  h_constructed h = true /\ h_class h = c /\ h_tag h = n /\ p d = Ok (r, v).
Proof.
  unfold explicit_content. rewrite <- assert_constructed_ok, <- check_class_ok, <- check_tag_ok.
  destruct (assert_constructed h) as [[]| | |]; cbn [bind]; try (split; [discriminate|intros [E _]; discriminate]).
  destruct (check_class h c) as [[]| | |]; cbn [bind]; try (split; [discriminate|intros (_ & E & _); discriminate]).
  destruct (check_tag h n) as [[]| | |]; cbn [bind]; try (split; [discriminate|intros (_ & _ & E & _); discriminate]).
  tauto.
Qed.
Lemma implicit_content_ok {T} c (p : header -> bytes -> res (bytes * T)) h d r v :
  implicit_content c p h d = Ok (r, v) <-> h_class h = c /\ p h d = Ok (r, v).
Proof.
  unfold implicit_content. rewrite <- check_class_ok.
  destruct (check_class h c) as [[]| | |]; cbn [bind]; try (split; [discriminate|intros [E _]; discriminate]). tauto.
Qed.

Lemma close_ok {T} (o : res T) x : close o = Ok x <-> o = Ok x.
Proof. destruct o; cbn; split; congruence. Qed.

Lemma default_try_from_ok {T} accept (content : header -> bytes -> res (bytes * T)) a v :
  default_try_from accept content a = Ok v <->
  accept (h_tag (any_header a)) = true /\ exists r, content (any_header a) (any_data a) = Ok (r, v).
Proof.
  unfold default_try_from. destruct (accept _); [|split; [discriminate|intros [E _]; discriminate]].
  rewrite bind_ok. split.
  - intros ([r x] & E & F). rewrite close_ok in E. injection F as <-. split; [reflexivity|]. exists r. exact E.
  - intros [_ (r & E)]. exists (r, v). rewrite close_ok. auto.
Qed.

Lemma raw_content_ok h d r v : raw_content h d = Ok (r, v) <-> h_constructed h = true /\ r = [] /\ v = d.
Proof.
  unfold raw_content. rewrite <- assert_constructed_ok.
  destruct (assert_constructed h) as [[]| | |]; cbn [bind]; try (split; [discriminate|intros [E _]; discriminate]).
  rewrite take_all. split; [intros E; injection E as <- <-; auto|intros (_ & -> & ->); reflexivity].
Qed.

Lemma base_try_from {A} (b : base A) a v :
  try_from_any (base_codec b) a = Ok v <->
  accept_tag (base_codec b) (h_tag (any_header a)) = true
  /\ exists r, ber_content (base_codec b) (any_header a) (any_data a) = Ok (r, v).
Proof.
  assert (R : forall tag d, raw_try_from tag a = Ok d <->
    is_tag tag (h_tag (any_header a)) = true /\ exists r, raw_content (any_header a) (any_data a) = Ok (r, d)).
  { intros tag d. unfold raw_try_from. rewrite is_tag_iff, <- assert_tag_ok.
    destruct (assert_tag _ _) as [[]| | |]; cbn [bind]; try (split; [discriminate|intros [E _]; discriminate]).
    destruct (assert_constructed (any_header a)) as [[]| | |] eqn:K; cbn [bind];
      try (split; [discriminate|intros [_ (r & E)]; apply raw_content_ok in E as [E _]; apply assert_constructed_ok in E; congruence]).
    apply assert_constructed_ok in K. split.
    - intros E. injection E as <-. split; [reflexivity|]. exists []. apply raw_content_ok. auto.
    - intros [_ (r & E)]. apply raw_content_ok in E as (_ & _ & ->). reflexivity. }
  destruct b; try apply default_try_from_ok; apply R.
Qed.

(** ** BER *)

(** [TryFrom<Any>] accepts what the contents reader accepts; [from_ber] is [TryFrom<Any>] after [Any::from_ber]. *)
Definition same_contents {T} (P : parser T) (L : legacy T) : Prop := forall a v, bytes_ok (any_data a) ->
  (lg_try_from L a = Ok v <->
   ps_accept P (h_tag (any_header a)) = true /\ exists r, ps_ber_content P (any_header a) (any_data a) = Ok (r, v)).

Lemma legacy_blanket {A} (t : ty A) i : ber_same t ->
  lg_from_ber (legacy_of t) i = blanket_from_ber (lg_try_from (legacy_of t)) i.
Proof. destruct t; cbn [ber_same]; intros H; try contradiction; reflexivity. Qed.

Lemma same_from_ber {A} (t : ty A) i rem v : ber_same t -> same_contents (parser_of t) (legacy_of t) -> bytes_ok i ->
  (lg_from_ber (legacy_of t) i = Ok (rem, v) <-> ps_parse_ber (parser_of t) i = Ok (rem, v)).
Proof.
  intros B S Hi. rewrite legacy_blanket by exact B. rewrite typed_parse_ber. unfold blanket_from_ber. rewrite bind_ok. split.
  - intros ([r a] & E & F). apply bind_ok in F as (x & F & G). injection G as -> ->.
    apply S in F as [Ac (r' & F)]; [|apply (any_ber_object _ _ _ Hi E)]. eauto.
  - intros (a & r & E & Ac & F). exists (rem, a). split; [exact E|].
    rewrite (proj2 (S a v ltac:(apply (any_ber_object _ _ _ Hi E)))); [reflexivity|eauto].
Qed.

Lemma same_items {A} (t : ty A) i vs : ber_same t -> same_contents (parser_of t) (legacy_of t) -> bytes_ok i ->
  (seq_items (lg_from_ber (legacy_of t)) i = Ok vs <-> reads_all (ps_parse_ber (parser_of t)) i vs).
Proof.
  intros B S Hi. rewrite seq_items_reads; [|apply C51_consuming|exact Hi]. split; apply reads_all_imp; try exact Hi.
  - intros j rem v Hj E. rewrite same_from_ber in E by assumption. split; [exact E|]. eapply typed_rest_ber; eassumption.
  - intros j rem v Hj E. split; [rewrite same_from_ber by assumption; exact E|]. eapply typed_rest_ber; eassumption.
Qed.

Lemma typed_try_from {A} (t : ty A) : ber_same t -> same_contents (parser_of t) (legacy_of t).
Proof.
  induction t as [A b|A t IH|A m t IH|A t IH|A cmp t IH|A c m t IH|A c m t IH]; cbn [ber_same]; intros B a v Hd.
  - apply base_try_from.
  - cbn [parser_of legacy_of vec_parser vec_legacy default_parser codec_parser lg_try_from ps_accept ps_ber_content accept_tag ber_content].
    unfold vec_try_from. rewrite is_tag_iff, <- assert_tag_ok.
    destruct (assert_tag _ _) as [[]| | |]; cbn [bind]; try (split; [discriminate|intros [E _]; discriminate]).
    destruct (assert_constructed (any_header a)) as [[]| | |] eqn:K; cbn [bind];
      try (split; [discriminate|intros [_ (r & E)]; apply vec_ber_ok in E as [E _]; [apply assert_constructed_ok in E; congruence|apply parser_regular|exact Hd]]).
    apply assert_constructed_ok in K. rewrite same_items by auto. split.
    + intros E. split; [reflexivity|]. exists []. apply vec_ber_ok; [apply parser_regular|exact Hd|auto].
    + intros [_ (r & E)]. apply vec_ber_ok in E as (_ & _ & E); [exact E|apply parser_regular|exact Hd].
  - contradiction.
  - cbn [parser_of legacy_of setof_parser setof_legacy default_parser codec_parser lg_try_from ps_accept ps_ber_content accept_tag ber_content].
    unfold setof_try_from. rewrite is_tag_iff, <- assert_tag_ok.
    destruct (assert_tag _ _) as [[]| | |]; cbn [bind]; try (split; [discriminate|intros [E _]; discriminate]).
    destruct (assert_constructed (any_header a)) as [[]| | |] eqn:K; cbn [bind];
      try (split; [discriminate|intros [_ (r & E)]; apply setof_ber_ok in E as [E _]; [apply assert_constructed_ok in E; congruence|apply parser_regular|exact Hd]]).
    apply assert_constructed_ok in K. rewrite same_items by auto. split.
    + intros E. split; [reflexivity|]. exists []. apply setof_ber_ok; [apply parser_regular|exact Hd|auto].
    + intros [_ (r & E)]. apply setof_ber_ok in E as (_ & _ & E); [exact E|apply parser_regular|exact Hd].
  - cbn [parser_of legacy_of btreeset_parser btreeset_legacy default_parser codec_parser lg_try_from ps_accept ps_ber_content accept_tag ber_content].
    unfold btreeset_try_from, setof_try_from, btreeset_content. rewrite is_tag_iff, <- assert_tag_ok.
    destruct (assert_tag _ _) as [[]| | |]; cbn [bind]; try (split; [discriminate|intros [E _]; discriminate]).
    destruct (assert_constructed (any_header a)) as [[]| | |] eqn:K; cbn [bind];
      try (split; [discriminate|intros [_ (r & E)]; apply bind_ok in E as ([r' w] & E & _); apply setof_ber_ok in E as [E _];
                                [apply assert_constructed_ok in E; congruence|apply parser_regular|exact Hd]]).
    apply assert_constructed_ok in K. rewrite bind_ok. split.
    + intros (w & E & F). rewrite same_items in E by auto. split; [reflexivity|]. exists []. apply bind_ok. exists ([], w).
      split; [apply setof_ber_ok; [apply parser_regular|exact Hd|auto]|]. injection F as <-. reflexivity.
    + intros [_ (r & E)]. apply bind_ok in E as ([r' w] & E & F). apply setof_ber_ok in E as (_ & _ & E); [|apply parser_regular|exact Hd].
      exists w. rewrite same_items by auto. split; [exact E|]. injection F as _ <-. reflexivity.
  - cbn [parser_of legacy_of explicit_parser explicit_legacy default_parser codec_parser lg_try_from ps_accept ps_ber_content accept_tag ber_content].
    unfold explicit_try_from. rewrite is_tag_iff, <- assert_tag_ok.
    destruct (assert_tag _ _) as [[]| | |] eqn:Ta; cbn [bind]; try (split; [discriminate|intros [E _]; discriminate]).
    apply assert_tag_ok in Ta. split.
    + intros E. split; [reflexivity|]. apply bind_ok in E as ([] & K & E). apply bind_ok in E as ([] & C & E).
      apply bind_ok in E as ([r x] & E & F). injection F as ->. rewrite close_ok in E. exists r. apply explicit_content_ok.
      rewrite assert_constructed_ok in K. rewrite check_class_ok in C. rewrite <- (same_from_ber t) by auto. auto.
    + intros [_ (r & E)]. apply explicit_content_ok in E as (K & C & _ & E).
      apply assert_constructed_ok in K. apply check_class_ok in C. rewrite K, C. cbn [bind].
      rewrite <- (same_from_ber t) in E by auto. rewrite E. reflexivity.
  - destruct B as [Rt B]. specialize (IH B).
    cbn [parser_of legacy_of implicit_parser implicit_legacy default_parser codec_parser lg_try_from ps_accept ps_ber_content accept_tag ber_content].
    unfold implicit_try_from. rewrite is_tag_iff, <- assert_tag_ok.
    destruct (assert_tag _ _) as [[]| | |] eqn:Ta; cbn [bind]; try (split; [discriminate|intros [E _]; discriminate]).
    apply assert_tag_ok in Ta.
    assert (X : h_class (any_header a) = c ->
      (lg_try_from (legacy_of t) (mk_any (with_tag (any_header a) (lg_tag (legacy_of t))) (any_data a)) = Ok v <->
       exists r, ps_ber_content (parser_of t) (any_header a) (any_data a) = Ok (r, v))).
    { intros C. unfold same_contents in IH. rewrite IH by exact Hd. cbn [any_header any_data].
      destruct (retag_contents t (any_header a) (lg_tag (legacy_of t)) (any_data a)) as [-> _].
      - rewrite C, Ta. exact Rt.
      - apply own_tag_ok. exact B.
      - cbn [with_tag h_tag]. rewrite own_tag_accepted by exact B. tauto. }
    split.
    + intros E. split; [reflexivity|]. apply bind_ok in E as ([] & C & E). rewrite check_class_ok in C.
      apply (X C) in E as (r & E). exists r. apply implicit_content_ok. auto.
    + intros [_ (r & E)]. apply implicit_content_ok in E as [C E]. rewrite (proj2 (check_class_ok _ _) C). cbn [bind].
      apply (X C). eauto.
Qed.

(** ** C45: [from_ber] and [parse_ber] give the same results *)

Theorem C45_ber {A} (t : ty A) (i rem : bytes) (v : A) :
  ber_same t -> bytes_ok i ->
  (lg_from_ber (legacy_of t) i = Ok (rem, v) <-> ps_parse_ber (parser_of t) i = Ok (rem, v)).
Proof. intros B Hi. apply same_from_ber; [exact B|apply typed_try_from; exact B|exact Hi]. Qed.
Print Assumptions C45_ber.

(** ** C81: what is read as DER is read as BER *)

Lemma any_der_ber i rem a : bytes_ok i -> parse_der_any i = Ok (rem, a) -> parse_ber_any i = Ok (rem, a).
Proof.
  intros Hi E. pose proof (proj1 (C11_der_subset i rem a Hi)) as H. rewrite from_der_any_eq in H.
  destruct (H E) as [F _]. unfold from_ber in F. apply bind_ok in F as ([r x] & F & G). cbn in G. injection G as -> ->. exact F.
Qed.
Lemma any_der_length i rem a : bytes_ok i -> parse_der_any i = Ok (rem, a) ->
  h_length (any_header a) = Definite (blen (any_data a)).
Proof. intros Hi E. apply parse_der_any_ok in E as (c & k & t & n & idb & lenb & bs & HR & _ & <- & ->); [reflexivity|exact Hi]. Qed.

Lemma assert_primitive_ok h : assert_primitive h = Ok tt <-> h_constructed h = false.
Proof. unfold assert_primitive. destruct (h_constructed h); split; congruence. Qed.

Lemma base_der_ber {A} (b : base A) h d r v :
  der_content (base_codec b) h d = Ok (r, v) -> exists r', ber_content (base_codec b) h d = Ok (r', v).
Proof.
  destruct b; cbn [base_codec der_content ber_content bool_codec null_codec int_codec uint_codec enum_codec integer_codec
    octet_codec slice_codec bitstring_codec oid_codec string_codec str_codec ostring_codec bmp_codec universal_codec
    raw_codec utc_codec gen_codec].
  - unfold boolean_der_content, map_snd. intros E. apply bind_ok in E as ([r1 x] & E & F). apply bind_ok in E as ([r2 y] & E & G).
    destruct (_ || _); [|discriminate]. injection G as <- <-. exists r2. rewrite E. injection F as _ <-. reflexivity.
  - eauto.
  - intros E. apply bind_ok in E as ([] & _ & E). eauto.
  - intros E. apply bind_ok in E as ([] & _ & E). eauto.
  - intros E. unfold enum_ber_content. apply bind_ok in E as ([] & K & E). rewrite K. cbn [bind].
    apply bind_ok in E as ([] & _ & E). eauto.
  - intros E. apply bind_ok in E as ([] & _ & E). eauto.
  - intros E. apply bind_ok in E as ([] & _ & E). eauto.
  - intros E. apply bind_ok in E as ([] & _ & E). eauto.
  - intros E. apply bind_ok in E as ([] & _ & E). eauto.
  - eauto.
  - intros E. apply bind_ok in E as ([] & _ & E). eauto.
  - intros E. apply bind_ok in E as ([] & K & E). rewrite assert_primitive_ok in K. unfold str_ber_content. rewrite K. eauto.
  - intros E. apply bind_ok in E as ([] & K & E). rewrite assert_primitive_ok in K. unfold string_ber_content. rewrite K.
    cbn [negb bind test_valid_charset]. destruct (from_utf8 d); [|discriminate]. cbn [bind]. eauto.
  - intros E. apply bind_ok in E as ([] & _ & E). eauto.
  - intros E. apply bind_ok in E as ([] & _ & E). eauto.
  - eauto.
  - eauto.
  - intros E. apply bind_ok in E as ([] & K & E). rewrite assert_primitive_ok in K. unfold utc_ber_content. rewrite K. eauto.
  - intros E. apply bind_ok in E as ([] & K & E). rewrite assert_primitive_ok in K. unfold gen_ber_content. rewrite K.
    destruct (negb _); [discriminate|]. apply bind_ok in E as ([] & _ & E). eauto.
Qed.

Lemma typed_der_ber {A} (t : ty A) : forall h d r v, bytes_ok d ->
  ps_der_content (parser_of t) h d = Ok (r, v) -> exists r', ps_ber_content (parser_of t) h d = Ok (r', v).
Proof.
  assert (P : forall A (t : ty A),
    (forall h d r v, bytes_ok d -> ps_der_content (parser_of t) h d = Ok (r, v) -> exists r', ps_ber_content (parser_of t) h d = Ok (r', v)) ->
    forall i rem v, bytes_ok i -> ps_parse_der (parser_of t) i = Ok (rem, v) -> ps_parse_ber (parser_of t) i = Ok (rem, v) /\ bytes_ok rem).
  { clear A t. intros A t IH i rem v Hi E. split; [|exact (typed_rest_der t i rem v Hi E)].
    apply typed_parse_der in E as (a & r & E & Ac & C); [|exact Hi]. apply IH in C as (r' & C); [|apply (any_der_object _ _ _ Hi E)].
    apply typed_parse_ber. exists a, r'. split; [apply any_der_ber; assumption|]. auto. }
  induction t as [A b|A t IH|A m t IH|A t IH|A cmp t IH|A c m t IH|A c m t IH]; intros h d r v Hd; cbn [parser_of].
  - apply base_der_ber.
  - intros E. apply vec_der_ok in E as (K & _ & R); [|apply parser_regular|exact Hd]. exists [].
    apply vec_ber_ok; [apply parser_regular|exact Hd|]. split; [exact K|]. split; [reflexivity|].
    exact (reads_all_imp _ _ _ _ (P _ _ IH) Hd R).
  - intros E. cbn in E. unfold array_content in E. apply bind_ok in E as ([r' w] & E & F).
    apply vec_der_ok in E as (K & _ & R); [|apply parser_regular|exact Hd]. exists []. cbn. unfold array_content.
    rewrite (proj2 (vec_ber_ok (parser_of t) h d [] w (parser_regular t) Hd)).
    + cbn [bind]. destruct (length w =? m)%nat; [|discriminate]. injection F as _ <-. reflexivity.
    + split; [exact K|]. split; [reflexivity|]. exact (reads_all_imp _ _ _ _ (P _ _ IH) Hd R).
  - intros E. apply setof_der_ok in E as (K & _ & R); [|apply parser_regular|exact Hd]. exists [].
    apply setof_ber_ok; [apply parser_regular|exact Hd|]. split; [exact K|]. split; [reflexivity|].
    exact (reads_all_imp _ _ _ _ (P _ _ IH) Hd R).
  - intros E. cbn in E. unfold btreeset_content in E. apply bind_ok in E as ([r' w] & E & F).
    apply setof_der_ok in E as (K & _ & R); [|apply parser_regular|exact Hd]. exists []. cbn. unfold btreeset_content.
    rewrite (proj2 (setof_ber_ok (parser_of t) h d [] w (parser_regular t) Hd)).
    + cbn [bind]. injection F as _ <-. reflexivity.
    + split; [exact K|]. split; [reflexivity|]. exact (reads_all_imp _ _ _ _ (P _ _ IH) Hd R).
  - intros E. apply explicit_content_ok in E as (K & C & T & E). exists r. apply explicit_content_ok.
    apply (P _ _ IH) in E as [E _]; auto.
  - intros E. apply implicit_content_ok in E as (C & E). apply IH in E as (r' & E); [|exact Hd]. exists r'.
    apply implicit_content_ok. auto.
Qed.

Theorem C81_parse {A} (t : ty A) (i rem : bytes) (v : A) :
  bytes_ok i -> ps_parse_der (parser_of t) i = Ok (rem, v) -> ps_parse_ber (parser_of t) i = Ok (rem, v).
Proof.
  intros Hi E. apply typed_parse_der in E as (a & r & E & Ac & C); [|exact Hi].
  apply typed_der_ber in C as (r' & C); [|apply (any_der_object _ _ _ Hi E)].
  apply typed_parse_ber. exists a, r'. split; [apply any_der_ber; assumption|]. auto.
Qed.
Print Assumptions C81_parse.

(** The same through [from_der] and [from_ber], except for sequences and sets of elements, whose [from_der]
    does not look at the form of the object (unless an implicit tag is put on them). *)
Fixpoint from_sub {A} (t : ty A) : Prop :=
  match t with
  | TBase _ => True
  | TVec _ | TArray _ _ | TSetOf _ => False
  | TBTreeSet _ t => from_sub t
  | TExplicit _ _ t => from_sub t
  | TImplicit _ _ _ => True
  end.

Theorem C81_from_partial {A} (t : ty A) (i rem : bytes) (v : A) :
  from_sub t -> bytes_ok i -> lg_from_der (legacy_of t) i = Ok (rem, v) -> lg_from_ber (legacy_of t) i = Ok (rem, v).
Proof.
  revert i rem. induction t as [A b|A t IH|A m t IH|A t IH|A cmp t IH|A c m t IH|A c m t IH]; cbn [from_sub]; intros i rem S Hi;
    try contradiction.
  - cbn. unfold from_der, from_ber. intros E. apply bind_ok in E as ([r a] & E & F). apply bind_ok in F as ([] & _ & F).
    rewrite (any_der_ber _ _ _ Hi E). exact F.
  - cbn. unfold btreeset_from_der, blanket_from_ber, btreeset_try_from, setof_try_from. rewrite from_der_any_eq. intros E.
    apply bind_ok in E as ([r a] & E & F). apply bind_ok in F as ([] & T & F). apply bind_ok in F as ([] & K & F).
    apply bind_ok in F as (w & F & G). rewrite (any_der_ber _ _ _ Hi E). cbn [bind]. rewrite T, K. cbn [bind].
    destruct (any_der_object _ _ _ Hi E) as (_ & Hd & _).
    apply seq_items_reads in F; [|apply C51_consuming|exact Hd].
    rewrite (proj2 (seq_items_reads (lg_from_ber (legacy_of t)) (any_data a) w ltac:(apply C51_consuming) Hd)); [exact G|].
    refine (reads_all_imp _ _ _ _ _ Hd F). intros j rem' x Hj E'. split; [apply IH; assumption|].
    eapply (proj2 (C51_consuming t)); eassumption.
  - cbn. unfold explicit_from_der, blanket_from_ber, explicit_try_from. rewrite from_der_any_eq. intros E.
    apply bind_ok in E as ([r a] & E & F). apply bind_ok in F as ([] & T & F). apply bind_ok in F as ([] & K & F).
    apply bind_ok in F as ([] & C & F). apply bind_ok in F as ([r' x] & F & G). rewrite (any_der_ber _ _ _ Hi E). cbn [bind].
    rewrite T, K, C. cbn [bind]. destruct (any_der_object _ _ _ Hi E) as (_ & Hd & _).
    assert (x = v) by congruence. subst x. rewrite (IH _ _ _ S Hd F). exact G.
  - cbn. unfold implicit_from_der, blanket_from_ber. rewrite from_der_any_eq. intros E.
    apply bind_ok in E as ([r a] & E & F). rewrite (any_der_ber _ _ _ Hi E). exact F.
Qed.
Print Assumptions C81_from_partial.

(** A primitive object is read as a sequence by [Vec::from_der] (and [SetOf::from_der]) only. *)
Theorem C81_form_refuted :
  exists i, bytes_ok i /\ lg_from_der (legacy_of (TVec (TBase (BUint 1)))) i = Ok ([], [1%Z])
    /\ lg_from_ber (legacy_of (TVec (TBase (BUint 1)))) i = Err EConstructExpected.
Proof. exists [0x10; 3; 2; 1; 1]. split; [repeat constructor|vm_compute; split; reflexivity]. Qed.
Print Assumptions C81_form_refuted.

Example C81_case :
  let t := TSetOf (TExplicit ContextSpecific 1 (TBase BOwnedString)) in
  let i := [0x31; 6; 0xa1; 4; 0x0c; 2; 0x68; 0x69; 7] in
  ps_parse_der (parser_of t) i = Ok ([7], [[0x68; 0x69]]) /\ ps_parse_ber (parser_of t) i = Ok ([7], [[0x68; 0x69]])
  /\ let u := TBTreeSet Z.compare (TBase (BInt 2)) in let j := [0x31; 6; 2; 1; 5; 2; 1; 4] in
     from_sub u /\ lg_from_der (legacy_of u) j = Ok ([], [4%Z; 5%Z]) /\ lg_from_ber (legacy_of u) j = Ok ([], [4%Z; 5%Z]).
Proof. vm_compute. repeat split. Qed.

(** ** C45: [from_der] and [parse_der] *)

Lemma base_der_exact {A} (b : base A) h d v :
  match b with BEnum | BBits => False | _ => True end -> h_length h = Definite (blen d) ->
  ((exists r, der_content (base_codec b) h d = Ok (r, v)) <->
   check_constraints (base_codec b) (mk_any h d) = Ok tt /\ exists r, ber_content (base_codec b) h d = Ok (r, v)).
Proof.
  intros X L.
  assert (P : forall (T : Type) (ber : header -> bytes -> res (bytes * T)) v,
    (exists r, (let* _ := assert_primitive h in ber h d) = Ok (r, v)) <->
    assert_primitive h = Ok tt /\ exists r, ber h d = Ok (r, v)).
  { intros T ber w. destruct (assert_primitive h) as [[]| | |]; cbn [bind]; [tauto|..]; split;
      try (intros (r & E); discriminate); intros [E _]; discriminate. }
  assert (I : forall (T : Type) (ber : header -> bytes -> res (bytes * T)) v,
    (forall r, ber h d = Ok (r, v) -> assert_primitive h = Ok tt) ->
    (exists r, (let* _ := check_der_int_input d in ber h d) = Ok (r, v)) <->
    check_der_int (mk_any h d) = Ok tt /\ exists r, ber h d = Ok (r, v)).
  { intros T ber w Hp. unfold check_der_int. cbn [any_header any_data]. rewrite L. cbn [length_assert_definite]. split.
    - intros (r & E). apply bind_ok in E as ([] & C & E). rewrite (Hp r E). cbn [bind]. eauto.
    - intros [C (r & E)]. rewrite (Hp r E) in C. change (check_der_int_input d = Ok tt) in C. exists r. rewrite C. exact E. }
  destruct b; try contradiction; cbn [base_codec der_content ber_content check_constraints bool_codec null_codec int_codec uint_codec
    enum_codec integer_codec octet_codec slice_codec bitstring_codec oid_codec string_codec str_codec ostring_codec bmp_codec
    universal_codec raw_codec utc_codec gen_codec]; unfold check_primitive; cbn [any_header any_data].
  - unfold boolean_check, map_snd, boolean_der_content. cbn [any_data]. split.
    + intros (r & E). apply bind_ok in E as ([r1 x] & E & F). apply bind_ok in E as ([r2 y] & E & G).
      rewrite E. cbn [bind].
      assert (Y : d = y :: r2).
      { unfold boolean_ber_content in E. apply bind_ok in E as ([] & _ & E). destruct (blength_eqb _ _); [|discriminate].
        destruct d as [|z d']; [discriminate|]. cbn in E. congruence. }
      rewrite Y. destruct (_ || _); [|discriminate]. injection G as <- <-. split; [reflexivity|]. exists r2.
      injection F as _ <-. reflexivity.
    + intros [C (r & E)]. apply bind_ok in E as ([r1 x] & E & F). rewrite E. cbn [bind].
      assert (Y : d = x :: r1).
      { unfold boolean_ber_content in E. apply bind_ok in E as ([] & _ & E). destruct (blength_eqb _ _); [|discriminate].
        destruct d as [|z d']; [discriminate|]. cbn in E. congruence. }
      rewrite Y in C. destruct (_ || _); [|discriminate]. cbn [bind]. exists r. exact F.
  - tauto.
  - apply I. intros r E. unfold int_ber_content in E. apply bind_ok in E as ([] & K & _). exact K.
  - apply I. intros r E. unfold uint_ber_content in E. apply bind_ok in E as ([] & K & _). exact K.
  - apply I. intros r E. unfold integer_ber_content in E. apply bind_ok in E as ([] & K & _). exact K.
  - apply P.
  - apply P.
  - unfold oid_check, oid_der_content. cbn [any_header]. rewrite L. split; [|tauto]. intros (r & E). split; [|eauto].
    unfold oid_ber_content in E. apply bind_ok in E as ([] & K & _). rewrite K. reflexivity.
  - apply P.
  - unfold str_der_content. rewrite (P _ (fun _ d => match from_utf8 d with Some s => Ok ([], s) | None => Err EStringInvalidCharset end)).
    unfold str_ber_content. rewrite assert_primitive_ok. split; intros [K (r & E)]; (split; [exact K|]); exists r; rewrite K in *; exact E.
  - unfold str_der_content. rewrite (P _ (fun _ d => match from_utf8 d with Some s => Ok ([], s) | None => Err EStringInvalidCharset end)).
    unfold string_ber_content. rewrite assert_primitive_ok. split; intros [K (r & E)]; (split; [exact K|]); exists r; rewrite K in *;
      cbn [negb bind test_valid_charset] in *; destruct (from_utf8 d); try discriminate; exact E.
  - apply P.
  - apply P.
  - tauto.
  - tauto.
  - unfold utc_der_content, utc_ber_content. split.
    + intros (r & E). apply bind_ok in E as ([] & K & E). rewrite assert_primitive_ok in K. rewrite K. eauto.
    + intros [_ (r & E)]. destruct (h_constructed h) eqn:K; [discriminate|]. rewrite (proj2 (assert_primitive_ok h) K). eauto.
  - unfold gen_der_content, gen_ber_content. split.
    + intros (r & E). apply bind_ok in E as ([] & K & E). rewrite assert_primitive_ok in K. rewrite K.
      destruct (negb _); [discriminate|]. apply bind_ok in E as ([] & C & E). eauto.
    + intros [C (r & E)]. destruct (h_constructed h) eqn:K; [discriminate|]. rewrite (proj2 (assert_primitive_ok h) K). cbn [bind].
      destruct (negb _); [discriminate|]. rewrite C. cbn [bind]. eauto.
Qed.

Lemma one_form_contents {A} (t : ty A) : one_form t -> forall h d r v,
  ps_ber_content (parser_of t) h d = Ok (r, v) -> ps_der_content (parser_of t) h d = Ok (r, v).
Proof.
  induction t as [A b|A t IH|A m t IH|A t IH|A cmp t IH|A c m t IH|A c m t IH]; cbn [one_form]; intros O h d r v; try contradiction.
  - destruct b; try contradiction; cbn; auto.
    + unfold slice_ber_content, assert_primitive. destruct (h_constructed h); [discriminate|auto].
    + unfold str_ber_content, str_der_content, assert_primitive. destruct (h_constructed h); [discriminate|auto].
    + unfold utc_ber_content, utc_der_content, assert_primitive. destruct (h_constructed h); [discriminate|auto].
  - intros E. apply implicit_content_ok in E as [C E]. apply implicit_content_ok. auto.
Qed.

Lemma base_from_der {A} (b : base A) i rem v :
  from_der (base_codec b) i = Ok (rem, v) <->
  exists a r, parse_der_any i = Ok (rem, a) /\ accept_tag (base_codec b) (h_tag (any_header a)) = true
    /\ check_constraints (base_codec b) a = Ok tt /\ ber_content (base_codec b) (any_header a) (any_data a) = Ok (r, v).
Proof.
  unfold from_der. rewrite bind_ok. split.
  - intros ([r a] & E & F). apply bind_ok in F as ([] & C & F). apply bind_ok in F as (x & F & G). injection G as -> ->.
    apply base_try_from in F as [Ac (r' & F)]. eauto 7.
  - intros (a & r & E & Ac & C & F). exists (rem, a). split; [exact E|]. rewrite C. cbn [bind].
    rewrite (proj2 (base_try_from b a v)); [reflexivity|eauto].
Qed.

Theorem C45_der_kept {A} (t : ty A) (i rem : bytes) (v : A) :
  der_sub t -> bytes_ok i ->
  ps_parse_der (parser_of t) i = Ok (rem, v) -> lg_from_der (legacy_of t) i = Ok (rem, v).
Proof.
  revert v i rem. induction t as [A b|A t IH|A m t IH|A t IH|A cmp t IH|A c m t IH|A c m t IH]; cbn [der_sub]; intros v i rem S Hi E;
    try contradiction; pose proof E as E0; apply typed_parse_der in E as (a & r & E & Ac & C); try exact Hi;
    destruct (any_der_object _ _ _ Hi E) as (_ & Hd & _).
  - cbn [legacy_of codec_legacy lg_from_der]. apply base_from_der. exists a. cbn [parser_of codec_parser ps_der_content ps_accept] in C, Ac.
    pose proof (any_der_length _ _ _ Hi E) as L. destruct a as [h d]. cbn [any_header any_data] in *.
    destruct (base_der_ber _ _ _ _ _ C) as (r' & B). exists r'. split; [exact E|]. split; [exact Ac|]. split; [|exact B].
    assert (Q : match b with BEnum | BBits => False | _ => True end
                \/ check_constraints (base_codec b) (mk_any h d) = Ok tt).
    { destruct b; try contradiction; auto. right. cbn. rewrite L. reflexivity. }
    destruct Q as [Q|Q]; [|exact Q]. apply (base_der_exact b h d v Q L). eauto.
  - cbn [parser_of vec_parser default_parser codec_parser ps_der_content ps_accept accept_tag der_content] in C, Ac.
    apply vec_der_ok in C as (K & _ & R); [|apply parser_regular|exact Hd]. apply is_tag_iff in Ac. apply assert_tag_ok in Ac.
    cbn [legacy_of vec_legacy lg_from_der]. unfold vec_from_der. rewrite E. cbn [bind]. rewrite Ac. cbn [bind].
    rewrite (proj2 (seq_items_reads (lg_from_der (legacy_of t)) (any_data a) v ltac:(apply C51_consuming) Hd)); [reflexivity|].
    refine (reads_all_imp _ _ _ _ _ Hd R). intros j rem' x Hj E'. split; [apply IH; assumption|].
    eapply typed_rest_der; eassumption.
  - cbn [parser_of setof_parser default_parser codec_parser ps_der_content ps_accept accept_tag der_content] in C, Ac.
    apply setof_der_ok in C as (K & _ & R); [|apply parser_regular|exact Hd]. apply is_tag_iff in Ac. apply assert_tag_ok in Ac.
    cbn [legacy_of setof_legacy lg_from_der]. unfold setof_from_der. rewrite from_der_any_eq, E. cbn [bind]. rewrite Ac. cbn [bind].
    rewrite (proj2 (seq_items_reads (lg_from_der (legacy_of t)) (any_data a) v ltac:(apply C51_consuming) Hd)); [reflexivity|].
    refine (reads_all_imp _ _ _ _ _ Hd R). intros j rem' x Hj E'. split; [apply IH; assumption|].
    eapply typed_rest_der; eassumption.
  - cbn [parser_of btreeset_parser default_parser codec_parser ps_der_content ps_accept accept_tag der_content] in C, Ac.
    unfold btreeset_content in C. apply bind_ok in C as ([r' w] & C & F).
    apply setof_der_ok in C as (K & _ & R); [|apply parser_regular|exact Hd]. apply is_tag_iff in Ac. apply assert_tag_ok in Ac.
    apply assert_constructed_ok in K. injection F as _ <-.
    cbn [legacy_of btreeset_legacy lg_from_der]. unfold btreeset_from_der. rewrite from_der_any_eq, E. cbn [bind]. rewrite Ac. cbn [bind].
    rewrite K. cbn [bind].
    rewrite (proj2 (seq_items_reads (lg_from_der (legacy_of t)) (any_data a) w ltac:(apply C51_consuming) Hd)); [reflexivity|].
    refine (reads_all_imp _ _ _ _ _ Hd R). intros j rem' x Hj E'. split; [apply IH; assumption|].
    eapply typed_rest_der; eassumption.
  - cbn [parser_of explicit_parser default_parser codec_parser ps_der_content ps_accept accept_tag der_content] in C, Ac.
    apply explicit_content_ok in C as (K & C & T & F). apply assert_constructed_ok in K. apply check_class_ok in C. apply assert_tag_ok in T.
    cbn [legacy_of explicit_legacy lg_from_der]. unfold explicit_from_der. rewrite from_der_any_eq, E. cbn [bind]. rewrite T, K, C. cbn [bind].
    rewrite (IH _ _ _ S Hd F). reflexivity.
  - apply typed_der_ber in C as (r' & C); [|exact Hd].
    cbn [legacy_of implicit_legacy lg_from_der]. unfold implicit_from_der. rewrite from_der_any_eq, E. cbn [bind].
    change (implicit_try_from c m (legacy_of t) a) with (lg_try_from (legacy_of (TImplicit c m t)) a).
    rewrite (proj2 (typed_try_from (TImplicit c m t) S a v Hd)); [reflexivity|eauto].
Qed.
Print Assumptions C45_der_kept.

Theorem C45_der_no_more {A} (t : ty A) (i rem : bytes) (v : A) :
  der_sup t -> bytes_ok i ->
  lg_from_der (legacy_of t) i = Ok (rem, v) -> ps_parse_der (parser_of t) i = Ok (rem, v).
Proof.
  revert v i rem. induction t as [A b|A t IH|A m t IH|A t IH|A cmp t IH|A c m t IH|A c m t IH]; cbn [der_sup]; intros v i rem S Hi E;
    try contradiction; apply typed_parse_der; try exact Hi.
  - apply base_from_der in E as (a & r & E & Ac & C & B). exists a.
    pose proof (any_der_length _ _ _ Hi E) as L. destruct a as [h d]. cbn [any_header any_data] in *.
    assert (D : exists r', der_content (base_codec b) h d = Ok (r', v)).
    { assert (Q : match b with BEnum | BBits => False | _ => True end
                  \/ exists r', der_content (base_codec b) h d = Ok (r', v)).
      { destruct b; try contradiction; auto. right.
        cbn in B, C |- *. unfold bitstring_check in C. apply bind_ok in C as ([] & K & _). cbn [any_header] in K.
        exists r. unfold bitstring_der_content. rewrite K. exact B. }
      destruct Q as [Q|Q]; [|exact Q]. apply (base_der_exact b h d v Q L). eauto. }
    destruct D as (r' & D). exists r'. auto.
  - cbn [legacy_of btreeset_legacy lg_from_der] in E. unfold btreeset_from_der in E. rewrite from_der_any_eq in E.
    apply bind_ok in E as ([r a] & E & F). apply bind_ok in F as ([] & T & F). apply bind_ok in F as ([] & K & F).
    apply bind_ok in F as (w & F & G). injection G as -> <-. destruct (any_der_object _ _ _ Hi E) as (_ & Hd & _).
    apply seq_items_reads in F; [|apply C51_consuming|exact Hd]. exists a, []. split; [exact E|].
    rewrite assert_tag_ok in T. rewrite assert_constructed_ok in K.
    cbn [parser_of btreeset_parser default_parser codec_parser ps_der_content ps_accept accept_tag der_content].
    split; [apply is_tag_iff; exact T|]. unfold btreeset_content.
    rewrite (proj2 (setof_der_ok (parser_of t) (any_header a) (any_data a) [] w (parser_regular t) Hd)); [reflexivity|].
    split; [exact K|]. split; [reflexivity|].
    refine (reads_all_imp _ _ _ _ _ Hd F). intros j rem' x Hj E'. split; [apply IH; assumption|].
    eapply (proj2 (C51_consuming t)); eassumption.
  - cbn [legacy_of explicit_legacy lg_from_der] in E. unfold explicit_from_der in E. rewrite from_der_any_eq in E.
    apply bind_ok in E as ([r a] & E & F). apply bind_ok in F as ([] & T & F). apply bind_ok in F as ([] & K & F).
    apply bind_ok in F as ([] & C & F). apply bind_ok in F as ([r' x] & F & G). injection G as -> ->.
    destruct (any_der_object _ _ _ Hi E) as (_ & Hd & _). exists a, r'. split; [exact E|].
    rewrite assert_tag_ok in T. rewrite assert_constructed_ok in K. rewrite check_class_ok in C.
    cbn [parser_of explicit_parser default_parser codec_parser ps_der_content ps_accept accept_tag der_content].
    split; [apply is_tag_iff; exact T|]. apply explicit_content_ok. auto.
  - destruct S as [O S]. cbn [legacy_of implicit_legacy lg_from_der] in E. unfold implicit_from_der in E. rewrite from_der_any_eq in E.
    apply bind_ok in E as ([r a] & E & F). apply bind_ok in F as (x & F & G). injection G as -> ->.
    destruct (any_der_object _ _ _ Hi E) as (_ & Hd & _).
    apply (typed_try_from (TImplicit c m t) S a v Hd) in F as [Ac (r' & F)]. exists a, r'. split; [exact E|]. split; [exact Ac|].
    apply (one_form_contents (TImplicit c m t) O). exact F.
Qed.
Print Assumptions C45_der_no_more.

(** Any type converted with [impl_tryfrom_any!]; in particular [Boolean], [Real], [f32], [f64], [EmbeddedPdv]. *)
Theorem C45_codec_ber {T} (p : codec T) (i rem : bytes) (v : T) :
  try_from_any p = default_try_from (accept_tag p) (ber_content p) -> bytes_ok i ->
  (from_ber p i = Ok (rem, v) <-> parse_ber p i = Ok (rem, v)).
Proof.
  intros F Hi. pose proof (default_parse_ber_ok (accept_tag p) (ber_content p) (der_content p) i rem v) as D.
  change (ps_parse_ber (default_parser (accept_tag p) (ber_content p) (der_content p)) i) with (parse_ber p i) in D.
  rewrite D. unfold from_ber. rewrite F, bind_ok. split.
  - intros ([r a] & E & G). apply bind_ok in G as (x & G & G'). injection G' as -> ->.
    apply default_try_from_ok in G as [Ac (r' & G)]. eauto.
  - intros (a & r & E & Ac & C). exists (rem, a). split; [exact E|].
    rewrite (proj2 (default_try_from_ok (accept_tag p) (ber_content p) a v)); [reflexivity|eauto].
Qed.
Print Assumptions C45_codec_ber.

Theorem C45_codec_der {T} (p : codec T) (i rem : bytes) (v : T) :
  try_from_any p = default_try_from (accept_tag p) (ber_content p) ->
  (forall h d, h_length h = Definite (blen d) ->
    ((exists r, der_content p h d = Ok (r, v)) <->
     check_constraints p (mk_any h d) = Ok tt /\ exists r, ber_content p h d = Ok (r, v))) ->
  bytes_ok i -> (from_der p i = Ok (rem, v) <-> parse_der p i = Ok (rem, v)).
Proof.
  intros F X Hi. pose proof (default_parse_der_ok (accept_tag p) (ber_content p) (der_content p) i rem v Hi) as D.
  change (ps_parse_der (default_parser (accept_tag p) (ber_content p) (der_content p)) i) with (parse_der p i) in D.
  rewrite D. unfold from_der. rewrite F, bind_ok. split.
  - intros ([r a] & E & G). apply bind_ok in G as ([] & K & G). apply bind_ok in G as (x & G & G'). injection G' as -> ->.
    apply default_try_from_ok in G as [Ac G]. pose proof (any_der_length _ _ _ Hi E) as L. exists a.
    destruct a as [h d]. cbn [any_header any_data] in *. destruct (proj2 (X h d L) (conj K G)) as (r' & C). eauto.
  - intros (a & r & E & Ac & C). exists (rem, a). split; [exact E|]. pose proof (any_der_length _ _ _ Hi E) as L.
    destruct a as [h d]. cbn [any_header any_data] in *. destruct (proj1 (X h d L) (ex_intro _ r C)) as [K G].
    rewrite K. cbn [bind]. rewrite (proj2 (default_try_from_ok (accept_tag p) (ber_content p) (mk_any h d) v)); [reflexivity|auto].
Qed.
Print Assumptions C45_codec_der.

Theorem C45_reals (i rem : bytes) : bytes_ok i ->
  (forall v, from_ber real_codec i = Ok (rem, v) <-> parse_ber real_codec i = Ok (rem, v))
  /\ (forall v, from_der real_codec i = Ok (rem, v) <-> parse_der real_codec i = Ok (rem, v))
  /\ (forall v, from_ber f64_codec i = Ok (rem, v) <-> parse_ber f64_codec i = Ok (rem, v))
  /\ (forall v, from_der f64_codec i = Ok (rem, v) <-> parse_der f64_codec i = Ok (rem, v))
  /\ (forall v, from_ber f32_codec i = Ok (rem, v) <-> parse_ber f32_codec i = Ok (rem, v))
  /\ (forall v, from_der f32_codec i = Ok (rem, v) <-> parse_der f32_codec i = Ok (rem, v)).
Proof.
  intros Hi.
  assert (R : forall h d r v, h_length h = Definite (blen d) -> real_content h d = Ok (r, v) -> real_check (mk_any h d) = Ok tt).
  { intros h d r v L E. unfold real_content in E. apply bind_ok in E as ([] & K & _). unfold real_check. cbn [any_header].
    rewrite K, L. reflexivity. }
  split; [|split; [|split; [|split; [|split]]]]; intros v; first [apply C45_codec_ber; [reflexivity|exact Hi]|apply C45_codec_der; [reflexivity| |exact Hi]];
    intros h d L; cbn [der_content ber_content check_constraints real_codec f64_codec f32_codec]; (split; [|tauto]); intros (r & E); (split; [|eauto]).
  - exact (R _ _ _ _ L E).
  - unfold f64_content in E. apply bind_ok in E as ([r' x] & E & _). exact (R _ _ _ _ L E).
  - unfold f32_content in E. apply bind_ok in E as ([r' x] & E & _). exact (R _ _ _ _ L E).
Qed.
Print Assumptions C45_reals.

(** The excluded types do disagree: ENUMERATED without the check for leading zeros; BIT STRING with padding
    bits; sequences in primitive form; INTEGER under an implicit tag; an explicit tag under another implicit one. *)
Theorem C45_agree_refuted :
  (let i := [10; 2; 0; 5] in lg_from_der (legacy_of (TBase BEnum)) i = Ok ([], 5%Z)
     /\ ps_parse_der (parser_of (TBase BEnum)) i = Err (EDerConstraintFailed DCIntegerLeadingZeroes))
  /\ (let i := [3; 2; 1; 0xff] in ps_parse_der (parser_of (TBase BBits)) i = Ok ([], mk_bits 0 [0xff] 7)
     /\ lg_from_der (legacy_of (TBase BBits)) i = Err (EDerConstraintFailed DCUnusedBitsNotZero))
  /\ (let i := [0x10; 0] in lg_from_der (legacy_of (TVec (TBase BBool))) i = Ok ([], [])
     /\ ps_parse_der (parser_of (TVec (TBase BBool))) i = Err EConstructExpected)
  /\ (let i := [0x81; 2; 0; 5] in let t := TImplicit ContextSpecific 1 (TBase (BInt 4)) in
      lg_from_der (legacy_of t) i = Ok ([], 5%Z)
      /\ ps_parse_der (parser_of t) i = Err (EDerConstraintFailed DCIntegerLeadingZeroes))
  /\ (let i := [0xa1; 3; 1; 1; 0xff] in
      let t := TImplicit ContextSpecific 1 (TExplicit ContextSpecific 2 (TBase BBool)) in
      lg_from_ber (legacy_of t) i = Ok ([], true) /\ ps_parse_ber (parser_of t) i = Err EUnexpectedTag).
Proof. vm_compute. repeat split. Qed.
Print Assumptions C45_agree_refuted.

Example C45_case :
  let t := TBTreeSet Z.compare (TExplicit Application 3 (TImplicit ContextSpecific 2 (TBase (BInt 2)))) in
  let u := TVec (TImplicit Private 4 (TImplicit Private 5 (TBase BUtcTime))) in
  ber_same t /\ der_sub t /\ ber_same u /\ der_sub u /\ der_sup (TImplicit Private 4 (TImplicit Private 5 (TBase BUtcTime)))
  /\ (let i := [0x31; 6; 0x63; 4; 0x82; 2; 0x01; 0x00; 9] in
      lg_from_ber (legacy_of t) i = Ok ([9], [256%Z]) /\ ps_parse_ber (parser_of t) i = Ok ([9], [256%Z])
      /\ lg_from_der (legacy_of t) i = Ok ([9], [256%Z]) /\ ps_parse_der (parser_of t) i = Ok ([9], [256%Z])).
Proof. cbn [ber_same der_sub der_sup one_form base_one_form retag_ok]. repeat split; vm_compute; reflexivity. Qed.
