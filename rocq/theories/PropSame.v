(** C81 and C45 for derived types: what is read as DER is read as BER; what the newer readers ([parse_ber],
    [parse_der]) read is read by the older ones ([from_ber], [from_der]). *)
From Verif Require Import Base MHeader MEncode SHeader PArith PHeader PEncode MBer SBer PBer PIter PCodec PropBer.
From Verif Require Import MInt SInt MSeg SSeg MOid MText SText PropText.
From Verif Require Import MTime STime MCont SCont PCont SBase PBase PTypes PropCont PropTag PropItems PropAgree.
From Verif Require Import MDerive SDerive PDerive PSafe PropSafe.

(** ** What is read as DER is read as BER *)

(** Of readers, and of readers of contents. *)
Definition same_reads {T} (p q : bytes -> res (bytes * T)) : Prop :=
  forall i rem v, bytes_ok i -> p i = Ok (rem, v) -> q i = Ok (rem, v) /\ bytes_ok rem.
Definition der_in_ber {T} (P : parser T) : Prop :=
  forall h d r v, bytes_ok d -> ps_der_content P h d = Ok (r, v) -> exists r', ps_ber_content P h d = Ok (r', v).

Lemma header_der_ber i r h : header_parse_der i = Ok (r, h) -> header_parse_ber i = Ok (r, h).
Proof. unfold header_parse_der, header_parse_ber. intros E. apply bind_ok in E as ([r' h'] & E & F). rewrite E. destruct (is_definite _); [exact F|discriminate]. Qed.
Lemma header_rest i r h : bytes_ok i -> header_parse_ber i = Ok (r, h) -> bytes_ok r.
Proof. intros Hi E. destruct (parse_header_consumes _ _ _ Hi E) as (pre & -> & _). apply bytes_ok_app in Hi. tauto. Qed.

Lemma regular_parse {T} (P : parser T) : regular P -> der_in_ber P -> same_reads (ps_parse_der P) (ps_parse_ber P).
Proof.
  intros R D i rem v Hi E. rewrite (proj2 R) in E. rewrite (proj1 R).
  apply (default_parse_der_ok _ (ps_ber_content P) _ i rem v Hi) in E as (a & r & E & Ac & C).
  destruct (any_der_object _ _ _ Hi E) as (_ & Hd & Hr). apply D in C as (r' & C); [|exact Hd]. split; [|exact Hr].
  apply (default_parse_ber_ok _ _ (ps_der_content P) i rem v). exists a, r'. split; [apply any_der_ber; assumption|]. auto.
Qed.

Lemma vec_same {T} (P : parser T) : regular P -> der_in_ber P -> der_in_ber (vec_parser P).
Proof.
  intros R D h d r v Hd E. apply vec_der_ok in E as (K & _ & E); [|exact R|exact Hd]. exists [].
  apply vec_ber_ok; [exact R|exact Hd|]. split; [exact K|]. split; [reflexivity|].
  exact (reads_all_imp _ _ _ _ (regular_parse P R D) Hd E).
Qed.

Lemma explicit_same {T} c n (P : parser T) : regular P -> der_in_ber P -> der_in_ber (explicit_parser c n P).
Proof.
  intros R D h d r v Hd E. apply explicit_content_ok in E as (K & C & N & E). exists r. apply explicit_content_ok.
  apply (regular_parse P R D) in E as [E _]; auto.
Qed.
Lemma implicit_same {T} c n (P : parser T) : der_in_ber P -> der_in_ber (implicit_parser c n P).
Proof.
  intros D h d r v Hd E. apply implicit_content_ok in E as (C & E). apply D in E as (r' & E); [|exact Hd]. exists r'.
  apply implicit_content_ok. auto.
Qed.
Lemma tagged_regular {T} g (P : parser T) : regular (tagged_parser g P).
Proof. unfold tagged_parser. destruct (tg_kind g); apply default_regular. Qed.
Lemma tagged_same {T} g (P : parser T) : regular P -> der_in_ber P -> der_in_ber (tagged_parser g P).
Proof. intros R D. unfold tagged_parser. destruct (tg_kind g); [apply explicit_same|apply implicit_same]; assumption. Qed.

(** An object of definite length is fetched as it is. *)
Lemma definite_fetch h i r d : h_length h <> Indefinite -> ber_object_content h i MAX_RECURSION = Ok (r, d) ->
  i = d ++ r /\ h_length h = Definite (blen d).
Proof.
  change MAX_RECURSION with 50%nat. destruct (h_length h) as [n|] eqn:L; [intros _|congruence].
  rewrite (definite_content h i n 49 L). intros E. apply take_ok in E as [-> <-]. auto.
Qed.
Lemma definite_refetch h d : h_length h = Definite (blen d) -> ber_object_content h d MAX_RECURSION = Ok ([], d).
Proof.
  intros L. change MAX_RECURSION with 50%nat. rewrite (definite_content h d _ 49 L). apply take_all.
Qed.

Lemma option_same {T} (P : parser T) : der_in_ber P -> same_reads (ps_parse_der (option_parser P)) (ps_parse_ber (option_parser P)).
Proof.
  intros D i rem v Hi. cbn [option_parser ps_parse_der ps_parse_ber]. unfold option_parse.
  destruct (blen i =? 0); [intros E; injection E as <- <-; auto|]. intros E. apply bind_ok in E as ([r h] & E & F).
  pose proof (header_der_ber _ _ _ E) as E'. rewrite E'. cbn [bind].
  destruct (ps_accept P (h_tag h)) eqn:Ac; [|injection F as <- <-; auto].
  apply bind_ok in F as ([r2 d] & F & G). pose proof (header_rest _ _ _ Hi E') as Hr.
  destruct (definite_fetch h r r2 d) as [-> L]; [|exact F|].
  { unfold header_parse_der in E. unfold header_parse_ber in E'. rewrite E' in E. cbn [bind] in E. destruct (h_length h); [congruence|discriminate]. }
  apply bytes_ok_app in Hr as [Hd Hr]. rewrite F. cbn [bind]. apply bind_ok in G as ([r3 x] & G & X). injection X as -> ->.
  unfold option_content in G |- *. rewrite Ac in G |- *. rewrite (definite_refetch h d L) in G |- *. cbn [bind] in G |- *.
  apply bind_ok in G as ([r4 y] & G & X). injection X as _ <-. apply D in G as (r5 & G); [|exact Hd]. rewrite G. auto.
Qed.

Lemma default_same {T} (d : T) p q : same_reads p q -> same_reads (with_default d p) (with_default d q).
Proof.
  intros S i rem v Hi E. unfold with_default in *. apply bind_ok in E as ([r o] & E & F). injection F as <- <-.
  apply S in E as [E Hr]; [|exact Hi]. rewrite E. auto.
Qed.

Lemma tagged_optional_same {T} n (p q : bytes -> res (bytes * T)) : same_reads p q ->
  same_reads (tagged_optional header_parse_der n p) (tagged_optional header_parse_ber n q).
Proof.
  intros S i rem v Hi E. unfold tagged_optional in *. destruct (blen i =? 0); [injection E as <- <-; auto|].
  apply bind_ok in E as ([r h] & E & F). rewrite (header_der_ber _ _ _ E). cbn [bind].
  destruct (h_tag h =? n); [|injection F as <- <-; auto]. apply bind_ok in F as ([r2 x] & F & G). injection G as <- <-.
  apply S in F as [F Hr]; [|exact Hi]. rewrite F. auto.
Qed.

Lemma field_same {A B} p q (f g : fields B) : same_reads (T := A) p q -> same_reads f g -> same_reads (field p f) (field q g).
Proof.
  intros S1 S2 i rem v Hi E. unfold field in *. apply bind_ok in E as ([r x] & E & F). apply bind_ok in F as ([r2 y] & F & G).
  injection G as <- <-. apply S1 in E as [E Hr]; [|exact Hi]. apply S2 in F as [F Hr2]; [|exact Hr]. rewrite E. cbn [bind]. rewrite F. auto.
Qed.

Lemma dregular {A} (t : dty A) : regular (dparser_of t).
Proof. destruct t; cbn [dparser_of]; try apply default_regular. apply parser_regular. Qed.

Lemma denum_same ds : der_in_ber (denum_parser ds).
Proof.
  intros h d r v Hd E. cbn in E |- *. unfold denum_content in *. apply bind_ok in E as ([] & K & E). rewrite K. cbn [bind].
  apply bind_ok in E as ([r1 z] & E & F). apply (base_der_ber BEnum) in E as (r2 & E). cbn in E. rewrite E. cbn [bind].
  destruct (existsb _ ds); [|discriminate]. injection F as _ <-. eauto.
Qed.

Definition variants_same {T} (p q : variants T) : Prop :=
  forall h d r v, bytes_ok d -> p h d = Ok (r, v) -> exists r', q h d = Ok (r', v).

Lemma derived_der_ber :
  (forall A (t : dty A), der_in_ber (dparser_of t))
  /\ (forall A (fs : dfields A), same_reads (der_of fs) (ber_of fs))
  /\ (forall A (vs : dvariants A) k, variants_same (der_variants k vs) (ber_variants k vs)).
Proof.
  apply dty_mutind; cbn [dparser_of der_of ber_of der_variants ber_variants].
  - intros A t h d r v. apply typed_der_ber.
  - intros A t IH. apply vec_same; [apply dregular|exact IH].
  - intros A set fs IH h d r v Hd E. cbn in E |- *. unfold struct_content in *. apply bind_ok in E as ([] & K & E). rewrite K. cbn [bind].
    apply IH in E as [E _]; eauto.
  - intros A k vs IH h d r v Hd E. cbn in E |- *. unfold choice_content in *.
    destruct k as [[]|]; [apply bind_ok in E as ([] & K & E); rewrite K; cbn [bind]| |]; apply IH in E; eauto.
  - intros ds. apply denum_same.
  - intros A t IH h d r v Hd E. exact (IH h d r v Hd E).
  - intros i rem v Hi E. injection E as <- <-. auto.
  - intros A B t IH fs IHf. apply field_same; [apply regular_parse; [apply dregular|exact IH]|exact IHf].
  - intros A B t IH fs IHf. apply field_same; [apply option_same; exact IH|exact IHf].
  - intros A B d t IH fs IHf. apply field_same; [apply default_same, option_same; exact IH|exact IHf].
  - intros A B g t IH fs IHf. apply field_same; [|exact IHf].
    apply regular_parse; [apply tagged_regular|apply tagged_same; [apply dregular|exact IH]].
  - intros A B g t IH fs IHf. apply field_same; [|exact IHf]. apply tagged_optional_same.
    apply regular_parse; [apply tagged_regular|apply tagged_same; [apply dregular|exact IH]].
  - intros A B g d t IH fs IHf. apply field_same; [|exact IHf]. apply default_same, tagged_optional_same.
    apply regular_parse; [apply tagged_regular|apply tagged_same; [apply dregular|exact IH]].
  - intros k h d r v Hd E. discriminate.
  - intros A B n t IH vs IHv k h d r v Hd E. destruct k as [kd|].
    + unfold tagged_variant in *. destruct (h_tag h =? n).
      * apply bind_ok in E as ([r1 x] & E & F). injection F as <- <-. destruct kd.
        -- apply (regular_parse _ (dregular t) IH) in E as [E _]; [|exact Hd]. rewrite E. cbn [bind]. eauto.
        -- apply IH in E as (r2 & E); [|exact Hd]. rewrite E. cbn [bind]. eauto.
      * apply bind_ok in E as ([r1 x] & E & F). injection F as <- <-. apply IHv in E as (r2 & E); [|exact Hd]. rewrite E. cbn [bind]. eauto.
    + unfold untagged_variant in *. destruct (ps_accept (dparser_of t) (h_tag h)).
      * apply bind_ok in E as ([r1 x] & E & F). injection F as <- <-. apply IH in E as (r2 & E); [|exact Hd]. rewrite E. cbn [bind]. eauto.
      * apply bind_ok in E as ([r1 x] & E & F). injection F as <- <-. apply IHv in E as (r2 & E); [|exact Hd]. rewrite E. cbn [bind]. eauto.
Qed.

(** ** C81 for derived types *)

Theorem C81_derived {A} (t : dty A) (i rem : bytes) (v : A) :
  bytes_ok i -> ps_parse_der (dparser_of t) i = Ok (rem, v) -> ps_parse_ber (dparser_of t) i = Ok (rem, v).
Proof. intros Hi E. apply (regular_parse _ (dregular t) (proj1 derived_der_ber A t)) in E; tauto. Qed.
Print Assumptions C81_derived.

(** ** C81 for derived types, older readers *)

(** Every older reader first reads one object. *)
Definition from_any {T} (any_of : bytes -> res (bytes * any)) (p : bytes -> res (bytes * T)) : Prop :=
  forall i rem v, p i = Ok (rem, v) -> exists a, any_of i = Ok (rem, a).
Lemma typed_from_any {A} (t : ty A) : from_any parse_ber_any (lg_from_ber (legacy_of t)) /\ from_any parse_der_any (lg_from_der (legacy_of t)).
Proof.
  assert (B : forall T (f : any -> res T), from_any parse_ber_any (blanket_from_ber f)).
  { intros T f i rem v E. unfold blanket_from_ber in E. apply bind_ok in E as ([r a] & E & F). apply bind_ok in F as (x & F & G).
    injection G as -> ->. eauto. }
  destruct t as [b|A t|A n t|A t|A cmp t|A c n t|A c n t];
    cbn [legacy_of codec_legacy no_legacy vec_legacy setof_legacy btreeset_legacy explicit_legacy implicit_legacy lg_from_ber lg_from_der].
  - split; [apply B|]. intros i rem v E. unfold from_der in E. apply bind_ok in E as ([r a] & E & F).
    apply bind_ok in F as ([] & _ & F). apply bind_ok in F as (x & _ & G). injection G as -> _. eauto.
  - split; [apply B|]. intros i rem v E. unfold vec_from_der in E. apply bind_ok in E as ([r a] & E & F).
    apply bind_ok in F as ([] & _ & F). apply bind_ok in F as (x & _ & G). injection G as -> _. eauto.
  - split; intros i rem v E; discriminate.
  - split; [apply B|]. intros i rem v E. unfold setof_from_der in E. rewrite from_der_any_eq in E.
    apply bind_ok in E as ([r a] & E & F). apply bind_ok in F as ([] & _ & F). apply bind_ok in F as (x & _ & G).
    injection G as -> _. eauto.
  - split; [apply B|]. intros i rem v E. unfold btreeset_from_der in E. rewrite from_der_any_eq in E.
    apply bind_ok in E as ([r a] & E & F). apply bind_ok in F as ([] & _ & F). apply bind_ok in F as ([] & _ & F).
    apply bind_ok in F as (x & _ & G). injection G as -> _. eauto.
  - split; [apply B|]. intros i rem v E. unfold explicit_from_der in E. rewrite from_der_any_eq in E.
    apply bind_ok in E as ([r a] & E & F). apply bind_ok in F as ([] & _ & F). apply bind_ok in F as ([] & _ & F).
    apply bind_ok in F as ([] & _ & F). apply bind_ok in F as ([r' x] & _ & G). injection G as -> _. eauto.
  - split; [apply B|]. intros i rem v E. unfold implicit_from_der in E. rewrite from_der_any_eq in E.
    apply bind_ok in E as ([r a] & E & F). apply bind_ok in F as (x & _ & G). injection G as -> _. eauto.
Qed.
Lemma derived_from_any {A} (t : dty A) : from_any parse_ber_any (lg_from_ber (dlegacy_of t)) /\ from_any parse_der_any (lg_from_der (dlegacy_of t)).
Proof.
  assert (B : forall T (f : any -> res T), from_any parse_ber_any (blanket_from_ber f)).
  { intros T f i rem v E. unfold blanket_from_ber in E. apply bind_ok in E as ([r a] & E & F). apply bind_ok in F as (x & F & G).
    injection G as -> ->. eauto. }
  destruct t; cbn [dlegacy_of no_legacy vec_legacy struct_legacy alias_legacy lg_from_ber lg_from_der].
  - apply typed_from_any.
  - split; [apply B|]. intros i rem v E. unfold vec_from_der in E. apply bind_ok in E as ([r a] & E & F).
    apply bind_ok in F as ([] & _ & F). apply bind_ok in F as (x & _ & G). injection G as -> _. eauto.
  - split; [apply B|]. intros i rem v E. unfold struct_from_der in E. rewrite from_der_any_eq in E. apply bind_ok in E as ([r a] & E & F).
    apply bind_ok in F as ([] & _ & F). apply bind_ok in F as ([r' x] & _ & G). injection G as -> _. eauto.
  - split; intros i rem v E; discriminate.
  - split; intros i rem v E; discriminate.
  - split; [apply B|]. intros i rem v E. unfold alias_from_der in E. rewrite from_der_any_eq in E. apply bind_ok in E as ([r a] & E & F).
    apply bind_ok in F as ([] & _ & F). apply bind_ok in F as (x & _ & G). injection G as -> _. eauto.
Qed.
Lemma derived_consuming {A} (t : dty A) : consuming (lg_from_ber (dlegacy_of t)) /\ consuming (lg_from_der (dlegacy_of t)).
Proof.
  destruct (derived_from_any t) as [B D]. split; intros i rem v Hi E.
  - apply B in E as (a & E). exact (any_ber_consuming _ _ _ Hi E).
  - apply D in E as (a & E). exact (any_der_consuming _ _ _ Hi E).
Qed.
Lemma any_der_header i rem a : parse_der_any i = Ok (rem, a) -> exists r, header_parse_der i = Ok (r, any_header a).
Proof.
  unfold parse_der_any. intros E. apply bind_ok in E as ([r h] & E & F). apply bind_ok in F as ([] & _ & F).
  apply bind_ok in F as ([r2 d] & _ & G). injection G as _ <-. eauto.
Qed.

(** Types for which [from_der] looks at the form of the object: see C81_form_refuted. *)
Fixpoint dfrom_sub {A} (t : dty A) : Prop :=
  match t with
  | DTy t => from_sub t
  | DVec _ => False
  | DStruct _ fs => ffrom_sub fs
  | DChoice _ _ | DEnum _ | DAlias _ => True
  end
with ffrom_sub {A} (fs : dfields A) : Prop :=
  match fs with
  | FNil => True
  | FPlain t fs | FOption t fs | FDefault _ t fs => dfrom_sub t /\ ffrom_sub fs
  | FTagged g t fs | FTaggedOption g t fs | FTaggedDefault g _ t fs =>
      match tg_kind g with KExplicit => dfrom_sub t | KImplicit => True end /\ ffrom_sub fs
  end.

Lemma option_from_same {T} accept (L : legacy T) : from_any parse_der_any (lg_from_der L) ->
  same_reads (lg_from_der L) (lg_from_ber L) -> same_reads (option_from_der accept L) (option_from_ber accept L).
Proof.
  intros F S i rem v Hi E. unfold option_from_der, option_from_ber, option_from in *. destruct (blen i =? 0); [injection E as <- <-; auto|].
  assert (G : (let* (rem, x) := lg_from_der L i in Ok (rem, Some x)) = Ok (rem, v) ->
              exists r h, header_parse_der i = Ok (r, h) /\ (let* (rem, x) := lg_from_ber L i in Ok (rem, Some x)) = Ok (rem, v) /\ bytes_ok rem).
  { intros X. apply bind_ok in X as ([r x] & X & Y). injection Y as -> <-. destruct (F _ _ _ X) as (a & Fa).
    apply any_der_header in Fa as (r' & Fa). apply S in X as [X Hr]; [|exact Hi]. rewrite X. eauto. }
  destruct (header_parse_der i) as [[r h]| | |] eqn:H.
  - rewrite (header_der_ber _ _ _ H). destruct (accept (h_tag h)); [|injection E as <- <-; auto]. apply G in E as (? & ? & _ & E). exact E.
  - apply G in E as (? & ? & X & _). discriminate.
  - apply G in E as (? & ? & X & _). discriminate.
  - apply G in E as (? & ? & X & _). discriminate.
Qed.

Lemma tagged_from_same {T} g (L : legacy T) :
  match tg_kind g with KExplicit => same_reads (lg_from_der L) (lg_from_ber L) | KImplicit => True end ->
  same_reads (lg_from_der (tagged_legacy g L)) (lg_from_ber (tagged_legacy g L)).
Proof.
  intros S i rem v Hi. unfold tagged_legacy. destruct (tg_kind g); cbn [explicit_legacy implicit_legacy lg_from_der lg_from_ber].
  - unfold explicit_from_der, blanket_from_ber, explicit_try_from. rewrite from_der_any_eq. intros E.
    apply bind_ok in E as ([r a] & E & F). apply bind_ok in F as ([] & T1 & F). apply bind_ok in F as ([] & K & F).
    apply bind_ok in F as ([] & C & F). apply bind_ok in F as ([r' x] & F & G). rewrite (any_der_ber _ _ _ Hi E). cbn [bind].
    rewrite T1, K, C. cbn [bind]. destruct (any_der_object _ _ _ Hi E) as (_ & Hd & Hr). injection G as -> ->.
    apply S in F as [F _]; [|exact Hd]. rewrite F. auto.
  - unfold implicit_from_der, blanket_from_ber. rewrite from_der_any_eq. intros E.
    apply bind_ok in E as ([r a] & E & F). rewrite (any_der_ber _ _ _ Hi E). destruct (any_der_object _ _ _ Hi E) as (_ & Hd & Hr).
    apply bind_ok in F as (x & F & G). injection G as -> ->. cbn [bind]. rewrite F. auto.
Qed.

Lemma derived_from_same :
  (forall A (t : dty A), dfrom_sub t -> same_reads (lg_from_der (dlegacy_of t)) (lg_from_ber (dlegacy_of t)))
  /\ (forall A (fs : dfields A), ffrom_sub fs -> same_reads (lder_of fs) (lber_of fs))
  /\ (forall A (vs : dvariants A), True).
Proof.
  apply dty_mutind; cbn [dfrom_sub ffrom_sub dlegacy_of lder_of lber_of]; try (intros; exact I).
  - intros A t S i rem v Hi E. split; [apply C81_from_partial; assumption|]. exact (proj2 (proj2 (C51_consuming t) _ _ _ Hi E)).
  - intros A t _ [].
  - intros A set fs IH S i rem v Hi. cbn [struct_legacy lg_from_der lg_from_ber]. unfold struct_from_der, blanket_from_ber, struct_try_from.
    rewrite from_der_any_eq. intros E. apply bind_ok in E as ([r a] & E & F). apply bind_ok in F as ([] & T1 & F).
    apply bind_ok in F as ([r' x] & F & G). injection G as -> ->. rewrite (any_der_ber _ _ _ Hi E). cbn [bind]. rewrite T1. cbn [bind].
    destruct (any_der_object _ _ _ Hi E) as (_ & Hd & Hr). apply (IH S) in F as [F _]; [|exact Hd]. rewrite F. auto.
  - intros A k vs _ _ i rem v Hi E. discriminate.
  - intros ds _ i rem v Hi E. discriminate.
  - intros A t _ _ i rem v Hi. cbn [alias_legacy lg_from_der lg_from_ber]. unfold alias_from_der, blanket_from_ber.
    rewrite from_der_any_eq. intros E. apply bind_ok in E as ([r a] & E & F). apply bind_ok in F as ([] & T1 & F).
    apply bind_ok in F as (x & F & G). injection G as -> ->. rewrite (any_der_ber _ _ _ Hi E). cbn [bind]. rewrite F.
    destruct (any_der_object _ _ _ Hi E) as (_ & Hd & Hr). auto.
  - intros _ i rem v Hi E. injection E as <- <-. auto.
  - intros A B t IH fs IHf [S F]. apply field_same; auto.
  - intros A B t IH fs IHf [S F]. apply field_same; [|auto]. apply option_from_same; [apply derived_from_any|auto].
  - intros A B d t IH fs IHf [S F]. apply field_same; [|auto]. apply default_same, option_from_same; [apply derived_from_any|auto].
  - intros A B g t IH fs IHf [S F]. apply field_same; [|auto]. apply tagged_from_same. destruct (tg_kind g); auto.
  - intros A B g t IH fs IHf [S F]. apply field_same; [|auto]. apply tagged_optional_same, tagged_from_same. destruct (tg_kind g); auto.
  - intros A B g d t IH fs IHf [S F]. apply field_same; [|auto]. apply default_same, tagged_optional_same, tagged_from_same.
    destruct (tg_kind g); auto.
Qed.

Theorem C81_derived_from_partial {A} (t : dty A) (i rem : bytes) (v : A) :
  dfrom_sub t -> bytes_ok i -> lg_from_der (dlegacy_of t) i = Ok (rem, v) -> lg_from_ber (dlegacy_of t) i = Ok (rem, v).
Proof. intros S Hi E. apply (proj1 derived_from_same A t S) in E; tauto. Qed.
Print Assumptions C81_derived_from_partial.

(** ** C45 for derived types *)

(** Types with the older readers, an implicit tag over an explicit one being the same tag. *)
Fixpoint dretag_ok {A} (c : class) (n : N) (t : dty A) : Prop :=
  match t with
  | DTy t => retag_ok c n t
  | DAlias t => dretag_ok c n t
  | _ => True
  end.
Fixpoint dber_sub {A} (t : dty A) : Prop :=
  match t with
  | DTy t => ber_same t
  | DVec t => dber_sub t
  | DStruct _ fs => fber_sub fs
  | DChoice _ _ | DEnum _ => False
  | DAlias t => dber_sub t
  end
with fber_sub {A} (fs : dfields A) : Prop :=
  match fs with
  | FNil => True
  | FPlain t fs | FOption t fs | FDefault _ t fs => dber_sub t /\ fber_sub fs
  | FTagged g t fs | FTaggedOption g t fs | FTaggedDefault g _ t fs =>
      match tg_kind g with KExplicit => True | KImplicit => dretag_ok (tg_class g) (tg_num g) t end /\ dber_sub t /\ fber_sub fs
  end.

(** [TryFrom<Any>] accepts what the contents reader accepts. *)
Definition kept_contents {T} (P : parser T) (L : legacy T) : Prop := forall a r v, bytes_ok (any_data a) ->
  ps_accept P (h_tag (any_header a)) = true -> ps_ber_content P (any_header a) (any_data a) = Ok (r, v) -> lg_try_from L a = Ok v.
Definition blanket {T} (L : legacy T) : Prop := lg_from_ber L = blanket_from_ber (lg_try_from L).

Lemma kept_parse {T} (P : parser T) (L : legacy T) : regular P -> blanket L -> kept_contents P L -> same_reads (ps_parse_ber P) (lg_from_ber L).
Proof.
  intros R B K i rem v Hi E. rewrite (proj1 R) in E. rewrite B. apply (default_parse_ber_ok _ _ (ps_der_content P) i rem v) in E as (a & r & E & Ac & C).
  destruct (any_ber_object _ _ _ Hi E) as (_ & Hd & Hr). unfold blanket_from_ber. rewrite E. cbn [bind].
  rewrite (K a r v Hd Ac C). auto.
Qed.
Lemma derived_blanket {A} (t : dty A) : dber_sub t -> blanket (dlegacy_of t).
Proof.
  destruct t; cbn [dber_sub]; intros H; try contradiction; try reflexivity. unfold blanket. destruct t; cbn [ber_same] in H; try contradiction; reflexivity.
Qed.
Lemma derived_own_tag {A} (t : dty A) : dber_sub t -> ps_accept (dparser_of t) (lg_tag (dlegacy_of t)) = true.
Proof.
  induction t using dty_ind' with (P0 := fun _ _ => True) (P1 := fun _ _ => True); try exact I; cbn [dber_sub]; intros H; try contradiction.
  - apply own_tag_accepted, H.
  - reflexivity.
  - apply N.eqb_refl.
  - apply IHt, H.
Qed.
Lemma derived_own_ok {A} (t : dty A) c : dber_sub t -> dretag_ok c (lg_tag (dlegacy_of t)) t.
Proof.
  induction t using dty_ind' with (P0 := fun _ _ => True) (P1 := fun _ _ => True); try exact I; cbn [dber_sub dretag_ok]; intros H; try contradiction; try exact I.
  - apply own_tag_ok, H.
  - apply IHt, H.
Qed.
Lemma derived_retag {A} (t : dty A) h n d : dber_sub t -> dretag_ok (h_class h) (h_tag h) t -> dretag_ok (h_class h) n t ->
  ps_ber_content (dparser_of t) (with_tag h n) d = ps_ber_content (dparser_of t) h d.
Proof.
  induction t using dty_ind' with (P0 := fun _ _ => True) (P1 := fun _ _ => True); try exact I; cbn [dber_sub dretag_ok]; intros H H1 H2; try contradiction.
  - apply (retag_contents t h n d H1 H2).
  - reflexivity.
  - reflexivity.
  - apply IHt; assumption.
Qed.

Lemma explicit_kept {T} c n (P : parser T) (L : legacy T) : same_reads (ps_parse_ber P) (lg_from_ber L) ->
  kept_contents (explicit_parser c n P) (explicit_legacy c n L).
Proof.
  intros S a r v Hd Ac E. cbn [explicit_parser default_parser codec_parser ps_ber_content ps_accept ber_content accept_tag] in *.
  apply explicit_content_ok in E as (K & C & N & E). apply is_tag_iff in Ac. apply S in E as [E _]; [|exact Hd].
  cbn [explicit_legacy lg_try_from]. unfold explicit_try_from.
  apply assert_tag_ok in Ac. rewrite Ac. apply assert_constructed_ok in K. rewrite K. apply check_class_ok in C. rewrite C. cbn [bind].
  rewrite E. reflexivity.
Qed.
Lemma implicit_kept {A} c n (t : dty A) : dber_sub t -> dretag_ok c n t -> kept_contents (dparser_of t) (dlegacy_of t) ->
  kept_contents (implicit_parser c n (dparser_of t)) (implicit_legacy c n (dlegacy_of t)).
Proof.
  intros B R K a r v Hd Ac E. cbn [implicit_parser default_parser codec_parser ps_ber_content ps_accept ber_content accept_tag] in *.
  apply implicit_content_ok in E as (C & E). apply is_tag_iff in Ac. cbn [implicit_legacy lg_try_from]. unfold implicit_try_from.
  pose proof Ac as Ac'. apply assert_tag_ok in Ac'. rewrite Ac'. pose proof C as C'. apply check_class_ok in C'. rewrite C'. cbn [bind].
  apply (K (mk_any _ _) r v); cbn [any_header any_data with_tag h_tag]; [exact Hd|apply derived_own_tag, B|].
  rewrite (derived_retag t (any_header a) (lg_tag (dlegacy_of t)) (any_data a) B); [exact E| |apply derived_own_ok, B].
  rewrite C, Ac. exact R.
Qed.
Lemma tagged_kept {A} g (t : dty A) : dber_sub t ->
  match tg_kind g with KExplicit => True | KImplicit => dretag_ok (tg_class g) (tg_num g) t end ->
  kept_contents (dparser_of t) (dlegacy_of t) ->
  same_reads (ps_parse_ber (tagged_parser g (dparser_of t))) (lg_from_ber (tagged_legacy g (dlegacy_of t))).
Proof.
  intros B R K. apply kept_parse; [apply tagged_regular|unfold tagged_legacy; destruct (tg_kind g); reflexivity|].
  unfold tagged_parser, tagged_legacy. destruct (tg_kind g).
  - apply explicit_kept, kept_parse; [apply dregular|apply derived_blanket, B|exact K].
  - apply implicit_kept; assumption.
Qed.

Lemma tagged_optional_kept {T} header n (p q : bytes -> res (bytes * T)) : same_reads p q ->
  same_reads (tagged_optional header n p) (tagged_optional header n q).
Proof.
  intros S i rem v Hi E. unfold tagged_optional in *. destruct (blen i =? 0); [injection E as <- <-; auto|].
  apply bind_ok in E as ([r h] & E & F). rewrite E. cbn [bind].
  destruct (h_tag h =? n); [|injection F as <- <-; auto]. apply bind_ok in F as ([r2 x] & F & G). injection G as <- <-.
  apply S in F as [F Hr]; [|exact Hi]. rewrite F. auto.
Qed.
(** The contents of an optional field are fetched twice. *)
Lemma fetched_twice h i r d r' d' : bytes_ok i -> ber_object_content h i MAX_RECURSION = Ok (r, d) ->
  ber_object_content h d MAX_RECURSION = Ok (r', d') -> d' = d /\ bytes_ok d /\ bytes_ok r.
Proof.
  intros Hi E F. assert (X : exists x, i = d ++ x /\ bytes_ok r).
  { pose proof E as E'. apply ber_object_content_ok in E' as (bs & -> & _ & _ & ->); [|exact Hi].
    apply bytes_ok_app in Hi as [_ Hr]. unfold content_of. destruct (h_length h); [exists r; auto|].
    exists (skipn (length bs - 2) bs ++ r). rewrite app_assoc, firstn_skipn. auto. }
  destruct X as (x & -> & Hr). apply bytes_ok_app in Hi as [Hd Hx].
  pose proof (streaming_ber_object_content MAX_RECURSION h d Hd) as S. cbn beta in S. rewrite F in S. destruct S as [_ S].
  rewrite (S x Hx) in E. injection E as _ ->. auto.
Qed.
Lemma option_kept {T} (P : parser T) (L : legacy T) : blanket L -> kept_contents P L ->
  same_reads (ps_parse_ber (option_parser P)) (option_from_ber (ps_accept P) L).
Proof.
  intros B K i rem v Hi. cbn [option_parser ps_parse_ber]. unfold option_parse, option_from_ber, option_from.
  destruct (blen i =? 0); [intros E; injection E as <- <-; auto|]. intros E. apply bind_ok in E as ([r h] & E & F).
  rewrite E. destruct (ps_accept P (h_tag h)) eqn:Ac; [|injection F as <- <-; auto].
  apply bind_ok in F as ([r2 d] & F & G). pose proof (header_rest _ _ _ Hi E) as Hr.
  apply bind_ok in G as ([r3 x] & G & X). injection X as -> ->. unfold option_content in G. rewrite Ac in G.
  apply bind_ok in G as ([r4 d'] & G & Y). destruct (fetched_twice _ _ _ _ _ _ Hr F G) as (-> & Hd & Hr2).
  apply bind_ok in Y as ([r5 y] & Y & Z). injection Z as _ <-. rewrite B. unfold blanket_from_ber, parse_ber_any. rewrite E. cbn [bind].
  rewrite F. cbn [bind]. rewrite (K (mk_any h d) r5 y); auto.
Qed.

Lemma derived_kept :
  (forall A (t : dty A), dber_sub t -> kept_contents (dparser_of t) (dlegacy_of t))
  /\ (forall A (fs : dfields A), fber_sub fs -> same_reads (ber_of fs) (lber_of fs))
  /\ (forall A (vs : dvariants A), True).
Proof.
  apply dty_mutind; cbn [dber_sub fber_sub dparser_of dlegacy_of ber_of lber_of]; try (intros; exact I); try (intros; contradiction).
  - intros A t B a r v Hd Ac C. apply (typed_try_from t B a v Hd). eauto.
  - intros A t IH B a r v Hd Ac C. cbn [vec_parser default_parser codec_parser ps_ber_content ps_accept ber_content accept_tag] in *.
    apply vec_ber_ok in C as (K & _ & R); [|apply dregular|exact Hd]. apply is_tag_iff in Ac. apply assert_tag_ok in Ac.
    apply assert_constructed_ok in K. cbn [vec_legacy lg_try_from]. unfold vec_try_from. rewrite Ac, K. cbn [bind].
    apply seq_items_reads; [apply derived_consuming|exact Hd|]. refine (reads_all_imp _ _ _ _ _ Hd R).
    apply kept_parse; [apply dregular|apply derived_blanket, B|exact (IH B)].
  - intros A set fs IH B a r v Hd Ac C. cbn [struct_parser default_parser codec_parser ps_ber_content ps_accept ber_content accept_tag] in *.
    unfold struct_content in C. apply bind_ok in C as ([] & _ & C). apply is_tag_iff in Ac. apply assert_tag_ok in Ac.
    cbn [struct_legacy lg_try_from]. unfold struct_try_from. rewrite Ac. cbn [bind]. apply (IH B) in C as [C _]; [|exact Hd].
    rewrite C. reflexivity.
  - intros A t IH B a r v Hd Ac C. exact (IH B a r v Hd Ac C).
  - intros _ i rem v Hi E. injection E as <- <-. auto.
  - intros A B t IH fs IHf [S F]. apply field_same; [|auto]. apply kept_parse; [apply dregular|apply derived_blanket, S|auto].
  - intros A B t IH fs IHf [S F]. apply field_same; [|auto]. apply option_kept; [apply derived_blanket, S|auto].
  - intros A B d t IH fs IHf [S F]. apply field_same; [|auto]. apply default_same, option_kept; [apply derived_blanket, S|auto].
  - intros A B g t IH fs IHf (G & S & F). apply field_same; [|auto]. apply tagged_kept; auto.
  - intros A B g t IH fs IHf (G & S & F). apply field_same; [|auto]. apply tagged_optional_kept, tagged_kept; auto.
  - intros A B g d t IH fs IHf (G & S & F). apply field_same; [|auto]. apply default_same, tagged_optional_kept, tagged_kept; auto.
Qed.

Theorem C45_derived_ber {A} (t : dty A) (i rem : bytes) (v : A) :
  dber_sub t -> bytes_ok i -> ps_parse_ber (dparser_of t) i = Ok (rem, v) -> lg_from_ber (dlegacy_of t) i = Ok (rem, v).
Proof.
  intros B Hi E. apply (kept_parse _ (dlegacy_of t) (dregular t) (derived_blanket t B) (proj1 derived_kept A t B)) in E; tauto.
Qed.
Print Assumptions C45_derived_ber.

(** [from_der] of an alias compares the tag with that of the inner type, and reads the contents as BER; so
    does an implicit tag. *)
Fixpoint done_tag {A} (t : dty A) : Prop :=
  match t with
  | DTy t => match t with TBase BOid => False | _ => True end
  | DAlias t => done_tag t
  | _ => True
  end.
Fixpoint dder_sub {A} (t : dty A) : Prop :=
  match t with
  | DTy t => der_sub t
  | DVec t => dder_sub t
  | DStruct _ fs => fder_sub fs
  | DChoice _ _ | DEnum _ => False
  | DAlias t => done_tag t /\ dber_sub t
  end
with fder_sub {A} (fs : dfields A) : Prop :=
  match fs with
  | FNil => True
  | FPlain t fs | FOption t fs | FDefault _ t fs => dder_sub t /\ fder_sub fs
  | FTagged g t fs | FTaggedOption g t fs | FTaggedDefault g _ t fs =>
      match tg_kind g with
      | KExplicit => dder_sub t
      | KImplicit => dretag_ok (tg_class g) (tg_num g) t /\ dber_sub t
      end /\ fder_sub fs
  end.

Lemma one_tag_accepted {A} (t : dty A) n : done_tag t -> dber_sub t -> ps_accept (dparser_of t) n = true -> n = lg_tag (dlegacy_of t).
Proof.
  induction t using dty_ind' with (P0 := fun _ _ => True) (P1 := fun _ _ => True); try exact I; cbn [dber_sub done_tag dparser_of dlegacy_of]; intros D H;
    try contradiction.
  - destruct t; cbn [ber_same] in H; try contradiction; try apply is_tag_iff. destruct b; try contradiction; apply is_tag_iff.
  - apply is_tag_iff.
  - apply is_tag_iff.
  - apply IHt; assumption.
Qed.

Lemma tagged_der_kept {A} g (t : dty A) :
  match tg_kind g with
  | KExplicit => same_reads (ps_parse_der (dparser_of t)) (lg_from_der (dlegacy_of t))
  | KImplicit => dretag_ok (tg_class g) (tg_num g) t /\ dber_sub t
  end ->
  same_reads (ps_parse_der (tagged_parser g (dparser_of t))) (lg_from_der (tagged_legacy g (dlegacy_of t))).
Proof.
  intros S i rem v Hi E. rewrite (proj2 (tagged_regular g _)) in E.
  apply (default_parse_der_ok _ (ps_ber_content (tagged_parser g (dparser_of t))) _ i rem v Hi) in E as (a & r & E & Ac & C).
  destruct (any_der_object _ _ _ Hi E) as (_ & Hd & Hr). split; [|exact Hr].
  unfold tagged_parser in *. unfold tagged_legacy. destruct (tg_kind g); cbn [explicit_legacy implicit_legacy lg_from_der].
  - cbn [explicit_parser default_parser codec_parser ps_der_content ps_accept der_content accept_tag] in *.
    apply explicit_content_ok in C as (K & Cl & N & C). apply is_tag_iff in Ac. apply S in C as [C _]; [|exact Hd].
    unfold explicit_from_der. rewrite from_der_any_eq, E. cbn [bind].
    apply assert_tag_ok in Ac. rewrite Ac. apply assert_constructed_ok in K. rewrite K. apply check_class_ok in Cl. rewrite Cl. cbn [bind].
    rewrite C. reflexivity.
  - destruct S as [R B]. destruct (implicit_same (tg_class g) (tg_num g) _ (proj1 derived_der_ber A t) _ _ _ _ Hd C) as (r' & C').
    unfold implicit_from_der. rewrite from_der_any_eq, E. cbn [bind].
    pose proof (implicit_kept (tg_class g) (tg_num g) t B R (proj1 derived_kept A t B) a r' v Hd Ac C') as X.
    cbn [implicit_legacy lg_try_from] in X. rewrite X. reflexivity.
Qed.
Lemma option_der_kept {T} (P : parser T) (L : legacy T) : regular P -> same_reads (ps_parse_der P) (lg_from_der L) ->
  same_reads (ps_parse_der (option_parser P)) (option_from_der (ps_accept P) L).
Proof.
  intros R S i rem v Hi. cbn [option_parser ps_parse_der]. unfold option_parse, option_from_der, option_from.
  destruct (blen i =? 0); [intros E; injection E as <- <-; auto|]. intros E. apply bind_ok in E as ([r h] & E & F).
  rewrite E. destruct (ps_accept P (h_tag h)) eqn:Ac; [|injection F as <- <-; auto].
  pose proof (header_der_ber _ _ _ E) as E'. apply bind_ok in F as ([r2 d] & F & G). pose proof (header_rest _ _ _ Hi E') as Hr.
  destruct (definite_fetch h r r2 d) as [-> L1]; [|exact F|].
  { unfold header_parse_der in E. unfold header_parse_ber in E'. rewrite E' in E. cbn [bind] in E. destruct (h_length h); [congruence|discriminate]. }
  apply bind_ok in G as ([r3 x] & G & X). injection X as -> ->. unfold option_content in G. rewrite Ac, (definite_refetch h d L1) in G. cbn [bind] in G.
  apply bind_ok in G as ([r5 y] & Y & Z). injection Z as _ <-. 
  assert (Q : ps_parse_der P i = Ok (rem, y)).
  { rewrite (proj2 R). apply (default_parse_der_ok _ (ps_ber_content P) _ i rem y Hi). exists (mk_any h d), r5. split; [|auto].
    unfold parse_der_any. rewrite E. cbn [bind]. rewrite L1. cbn [length_assert_definite bind]. unfold der_get_content. rewrite L1. 
    rewrite take_app by reflexivity. reflexivity. }
  apply S in Q as [Q Hr2]; [|exact Hi]. rewrite Q. auto.
Qed.

Lemma derived_der_kept :
  (forall A (t : dty A), dder_sub t -> same_reads (ps_parse_der (dparser_of t)) (lg_from_der (dlegacy_of t)))
  /\ (forall A (fs : dfields A), fder_sub fs -> same_reads (der_of fs) (lder_of fs))
  /\ (forall A (vs : dvariants A), True).
Proof.
  assert (O : forall A (t : dty A) i rem v, bytes_ok i -> ps_parse_der (dparser_of t) i = Ok (rem, v) -> exists a r,
    parse_der_any i = Ok (rem, a) /\ ps_accept (dparser_of t) (h_tag (any_header a)) = true
    /\ ps_der_content (dparser_of t) (any_header a) (any_data a) = Ok (r, v) /\ bytes_ok (any_data a) /\ bytes_ok rem).
  { intros A t i rem v Hi E. rewrite (proj2 (dregular t)) in E.
    apply (default_parse_der_ok _ (ps_ber_content (dparser_of t)) _ i rem v Hi) in E as (a & r & E & Ac & C).
    destruct (any_der_object _ _ _ Hi E) as (_ & Hd & Hr). exists a, r. auto. }
  apply dty_mutind; cbn [dder_sub fder_sub der_of lder_of]; try (intros; exact I); try (intros; contradiction).
  - intros A t S i rem v Hi E. split; [apply C45_der_kept; assumption|]. eapply typed_rest_der; eassumption.
  - intros A t IH S i rem v Hi E. destruct (O _ _ _ _ _ Hi E) as (a & r & Ea & Ac & C & Hd & Hr); clear E; rename Ea into E. split; [|exact Hr].
    cbn [dparser_of vec_parser default_parser codec_parser ps_der_content ps_accept der_content accept_tag] in *.
    apply vec_der_ok in C as (K & _ & R); [|apply dregular|exact Hd]. apply is_tag_iff in Ac. apply assert_tag_ok in Ac.
    cbn [dlegacy_of vec_legacy lg_from_der]. unfold vec_from_der. rewrite E. cbn [bind]. rewrite Ac. cbn [bind].
    rewrite (proj2 (seq_items_reads (lg_from_der (dlegacy_of t)) (any_data a) v (proj2 (derived_consuming t)) Hd)); [reflexivity|].
    exact (reads_all_imp _ _ _ _ (IH S) Hd R).
  - intros A set fs IH S i rem v Hi E. destruct (O _ _ _ _ _ Hi E) as (a & r & Ea & Ac & C & Hd & Hr); clear E; rename Ea into E. split; [|exact Hr].
    cbn [dparser_of struct_parser default_parser codec_parser ps_der_content ps_accept der_content accept_tag] in *.
    unfold struct_content in C. apply bind_ok in C as ([] & _ & C). apply is_tag_iff in Ac. apply assert_tag_ok in Ac.
    cbn [dlegacy_of struct_legacy lg_from_der]. unfold struct_from_der. rewrite from_der_any_eq, E. cbn [bind]. rewrite Ac. cbn [bind].
    apply (IH S) in C as [C _]; [|exact Hd]. rewrite C. reflexivity.
  - intros A t _ [D B] i rem v Hi E. destruct (O _ _ _ _ _ Hi E) as (a & r & Ea & Ac & C & Hd & Hr); clear E; rename Ea into E. split; [|exact Hr].
    cbn [dparser_of alias_parser default_parser codec_parser ps_der_content ps_accept der_content accept_tag] in *.
    apply (proj1 derived_der_ber A t) in C as (r' & C); [|exact Hd]. 
    pose proof (proj1 derived_kept A t B a r' v Hd Ac C) as X. apply one_tag_accepted in Ac; [|exact D|exact B]. apply assert_tag_ok in Ac.
    cbn [dlegacy_of alias_legacy lg_from_der]. unfold alias_from_der. rewrite from_der_any_eq, E. cbn [bind]. rewrite Ac. cbn [bind].
    rewrite X. reflexivity.
  - intros _ i rem v Hi E. injection E as <- <-. auto.
  - intros A B t IH fs IHf [S F]. apply field_same; [|auto]. exact (IH S).
  - intros A B t IH fs IHf [S F]. apply field_same; [|auto]. apply option_der_kept; [apply dregular|auto].
  - intros A B d t IH fs IHf [S F]. apply field_same; [|auto]. apply default_same, option_der_kept; [apply dregular|auto].
  - intros A B g t IH fs IHf [S F]. apply field_same; [|auto]. apply tagged_der_kept. destruct (tg_kind g); auto.
  - intros A B g t IH fs IHf [S F]. apply field_same; [|auto]. apply tagged_optional_kept, tagged_der_kept. destruct (tg_kind g); auto.
  - intros A B g d t IH fs IHf [S F]. apply field_same; [|auto]. apply default_same, tagged_optional_kept, tagged_der_kept. destruct (tg_kind g); auto.
Qed.

Theorem C45_derived_der {A} (t : dty A) (i rem : bytes) (v : A) :
  dder_sub t -> bytes_ok i -> ps_parse_der (dparser_of t) i = Ok (rem, v) -> lg_from_der (dlegacy_of t) i = Ok (rem, v).
Proof. intros S Hi E. apply (proj1 derived_der_kept A t S) in E; tauto. Qed.
Print Assumptions C45_derived_der.

(** The other way round is false: the older readers of structs do not look at the form; the newer reader of an
    optional field of indefinite length fetches the contents twice and fails; [from_der] of an alias of
    [Oid] refuses a relative OID. *)
Theorem C45_derived_refuted :
  (let t := DStruct false FNil in
   let i := [0x10; 0] in
   lg_from_ber (dlegacy_of t) i = Ok ([], tt) /\ lg_from_der (dlegacy_of t) i = Ok ([], tt)
   /\ ps_parse_ber (dparser_of t) i = Err EConstructExpected /\ ps_parse_der (dparser_of t) i = Err EConstructExpected)
  /\ (let t := DStruct false (FOption (DVec (DTy (TBase BBool))) FNil) in
      let i := [0x30; 7; 0x30; 0x80; 1; 1; 0xff; 0; 0] in
      dber_sub t /\ lg_from_ber (dlegacy_of t) i = Ok ([], (Some [true], tt)) /\ ps_parse_ber (dparser_of t) i = Incomplete 1)
  /\ (let t := DAlias (DTy (TBase BOid)) in
      let i := [13; 1; 5] in
      dber_sub t /\ (exists v, ps_parse_der (dparser_of t) i = Ok ([], v)) /\ exists e, lg_from_der (dlegacy_of t) i = Err e).
Proof.
  split; [vm_compute; repeat split|]. split; cbv zeta.
  - split; [cbn; auto|]. split; vm_compute; reflexivity.
  - split; [cbn; auto|]. split; eexists; vm_compute; reflexivity.
Qed.
Print Assumptions C45_derived_refuted.

Definition sample_struct :=
  DStruct false
    (FPlain (DAlias (DTy (TBase (BInt 2))))
      (FOption (DVec (DTy (TBase BBool)))
        (FTagged (mk_tagging KExplicit ContextSpecific 0) (DStruct true (FDefault 7%Z (DTy (TBase (BUint 1))) FNil))
          (FTaggedDefault (mk_tagging KImplicit ContextSpecific 1) 5%Z (DTy (TBase (BInt 1))) FNil)))).
Definition sample_octets : bytes := [0x30; 15; 2; 1; 3; 0x30; 3; 1; 1; 0xff; 0xa0; 2; 0x31; 0; 0x81; 1; 9; 42].
Example C45_derived_case :
  dber_sub sample_struct /\ dder_sub sample_struct
  /\ (let v := (3, (Some [true], ((7, tt), (9, tt))))%Z in
      ps_parse_ber (dparser_of sample_struct) sample_octets = Ok ([42], v)
      /\ ps_parse_der (dparser_of sample_struct) sample_octets = Ok ([42], v)
      /\ lg_from_ber (dlegacy_of sample_struct) sample_octets = Ok ([42], v)
      /\ lg_from_der (dlegacy_of sample_struct) sample_octets = Ok ([42], v)).
Proof. split; [cbn; tauto|]. split; [cbn; tauto|]. vm_compute. repeat split. Qed.
Example C81_derived_case :
  let t := DStruct false (FPlain (DAlias (DTy (TBase (BInt 2)))) (FOption (DTy (TBTreeSet Bool.compare (TBase BBool))) FNil)) in
  let i := [0x30; 8; 2; 1; 3; 0x31; 3; 1; 1; 0xff; 42] in
  dfrom_sub t /\ lg_from_der (dlegacy_of t) i = Ok ([42], (3%Z, (Some [true], tt)))
  /\ lg_from_ber (dlegacy_of t) i = Ok ([42], (3%Z, (Some [true], tt)))
  /\ ps_parse_der (dparser_of sample_struct) sample_octets = ps_parse_ber (dparser_of sample_struct) sample_octets.
Proof. split; [cbn; tauto|]. vm_compute. repeat split. Qed.
