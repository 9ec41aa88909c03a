(** Properties of tagged values, of the elements of containers, and of SET OF. *)
From Verif Require Import Base MHeader MEncode SHeader PArith PHeader PEncode MBer SBer PBer PIter PCodec.
From Verif Require Import MInt SInt PInt MSeg SSeg MOid MText SText PropText.
From Verif Require Import MCont SCont PCont SBase PBase PTypes PropCont.

(** ** Objects *)

Lemma any_ber_object i rem a :
  bytes_ok i -> parse_ber_any i = Ok (rem, a) ->
  starts_with_ber_object (h_class (any_header a)) (h_constructed (any_header a)) (h_tag (any_header a)) (any_data a) i rem
  /\ bytes_ok (any_data a) /\ bytes_ok rem.
Proof.
  intros Hi P. apply parse_ber_any_ok in P as (c & k & t & l & idb & lenb & bs & HR & -> & Hc & ->); [|exact Hi].
  rewrite app_assoc in Hi. apply bytes_ok_app in Hi as [_ Hi]. apply bytes_ok_app in Hi as [Hb Hr].
  split; [|split; [apply content_of_ok; exact Hb|exact Hr]].
  exists t, l, idb, lenb, bs. auto.
Qed.

Lemma ber_object_any c k t d i rem :
  bytes_ok i -> starts_with_ber_object c k t d i rem ->
  exists h, parse_ber_any i = Ok (rem, mk_any h d) /\ h_class h = c /\ h_constructed h = k /\ h_tag h = t.
Proof.
  intros Hi (u & l & idb & lenb & bs & HR & <- & -> & Hc & ->). eexists. split.
  - apply parse_ber_any_ok; [exact Hi|]. exists c, k, u, l, idb, lenb, bs. auto.
  - auto.
Qed.

Lemma any_der_object i rem a :
  bytes_ok i -> parse_der_any i = Ok (rem, a) ->
  starts_with_object (h_class (any_header a)) (h_constructed (any_header a)) (h_tag (any_header a)) (any_data a) i rem
  /\ bytes_ok (any_data a) /\ bytes_ok rem.
Proof.
  intros Hi P. apply parse_der_any_ok in P as (c & k & t & n & idb & lenb & bs & HR & -> & <- & ->); [|exact Hi].
  rewrite app_assoc in Hi. apply bytes_ok_app in Hi as [_ Hi]. apply bytes_ok_app in Hi as [Hb Hr].
  split; [|split; assumption]. exists t, idb, lenb. auto.
Qed.

Lemma der_object_any c k t d i rem :
  bytes_ok i -> starts_with_object c k t d i rem ->
  exists h, parse_der_any i = Ok (rem, mk_any h d) /\ h_class h = c /\ h_constructed h = k /\ h_tag h = t.
Proof.
  intros Hi (u & idb & lenb & HR & <- & ->). eexists. split.
  - apply parse_der_any_ok; [exact Hi|]. exists c, k, u, (blen d), idb, lenb, d. auto.
  - auto.
Qed.

Lemma from_der_any_eq i : from_der any_codec i = parse_der_any i.
Proof.
  unfold from_der. destruct (parse_der_any i) as [[r a]| | |] eqn:E; try reflexivity. cbn [bind].
  unfold parse_der_any in E. apply bind_ok in E as ([i2 h] & _ & E). apply bind_ok in E as (u & E1 & E).
  apply bind_ok in E as ([i3 d] & _ & E). injection E as <- <-.
  unfold any_codec. cbn [check_constraints try_from_any]. unfold any_check_constraints. cbn [any_header].
  destruct (h_length h); [reflexivity|discriminate].
Qed.

(** An input starts with at most one object. *)
Lemma ber_object_unique c k t d i rem c' k' t' d' rem' :
  bytes_ok i -> starts_with_ber_object c k t d i rem -> starts_with_ber_object c' k' t' d' i rem' ->
  c = c' /\ k = k' /\ t = t' /\ d = d' /\ rem = rem'.
Proof.
  intros Hi H H'. destruct (ber_object_any _ _ _ _ _ _ Hi H) as (h & E & <- & <- & <-).
  destruct (ber_object_any _ _ _ _ _ _ Hi H') as (h' & E' & <- & <- & <-).
  rewrite E in E'. injection E' as -> -> ->. auto.
Qed.

Lemma object_is_ber c k t d i rem : starts_with_object c k t d i rem -> starts_with_ber_object c k t d i rem.
Proof.
  intros (u & idb & lenb & HR & Et & E). exists u, (Definite (blen d)), idb, lenb, d.
  repeat split; try assumption; try apply HR. constructor. reflexivity.
Qed.

(** [parse_ber] and [parse_der] of a parser with default methods. *)
Lemma default_parse_ber {T} accept (ber der : header -> bytes -> res (bytes * T)) i :
  ps_parse_ber (default_parser accept ber der) i =
  let* (rem, a) := let* (i, h) := header_parse_ber i in
                   if accept (h_tag h) then let* (i, data) := ber_object_content h i MAX_RECURSION in Ok (i, mk_any h data)
                   else Err EUnexpectedTag in
  let* (_, x) := ber (any_header a) (any_data a) in Ok (rem, x).
Proof.
  cbn [default_parser codec_parser ps_parse_ber]. unfold parse_ber.
  destruct (header_parse_ber i) as [[r h]| | |]; try reflexivity. cbn [bind accept_tag].
  destruct (accept (h_tag h)); [|reflexivity].
  destruct (ber_object_content h r MAX_RECURSION) as [[r2 d]| | |]; reflexivity.
Qed.

Lemma default_parse_ber_ok {T} accept (ber der : header -> bytes -> res (bytes * T)) i rem v :
  ps_parse_ber (default_parser accept ber der) i = Ok (rem, v) <->
  exists a r, parse_ber_any i = Ok (rem, a) /\ accept (h_tag (any_header a)) = true
    /\ ber (any_header a) (any_data a) = Ok (r, v).
Proof.
  cbn [default_parser codec_parser ps_parse_ber]. unfold parse_ber, parse_ber_any.
  destruct (header_parse_ber i) as [[r h]| | |]; cbn [bind accept_tag ber_content];
    try (split; [discriminate|intros (a & r' & E & _); discriminate]).
  destruct (accept (h_tag h)) eqn:A.
  - destruct (ber_object_content h r MAX_RECURSION) as [[r2 d]| | |]; cbn [bind];
      try (split; [discriminate|intros (a & r' & E & _); discriminate]).
    split.
    + intros E. apply bind_ok in E as ([r3 x] & E1 & E). injection E as -> ->.
      exists (mk_any h d), r3. auto.
    + intros (a & r' & E & _ & E1). injection E as -> <-. cbn [any_header any_data] in E1. rewrite E1. reflexivity.
  - split; [discriminate|]. intros (a & r' & E & A' & _).
    apply bind_ok in E as ([r2 d] & _ & E). injection E as -> <-. cbn [any_header] in A'. congruence.
Qed.

Lemma default_parse_der_ok {T} accept (ber der : header -> bytes -> res (bytes * T)) i rem v :
  bytes_ok i ->
  ps_parse_der (default_parser accept ber der) i = Ok (rem, v) <->
  exists a r, parse_der_any i = Ok (rem, a) /\ accept (h_tag (any_header a)) = true
    /\ der (any_header a) (any_data a) = Ok (r, v).
Proof.
  intros Hi. cbn [default_parser codec_parser ps_parse_der]. rewrite parse_der_iff by exact Hi.
  cbn [accept_tag der_content]. split.
  - intros (c & k & t & idb & lenb & bs & r & HR & E & A & D). eexists. exists r.
    split; [apply parse_der_any_ok; [exact Hi|]; exists c, k, t, (blen bs), idb, lenb, bs; auto|]. auto.
  - intros (a & r & E & A & D).
    apply parse_der_any_ok in E as (c & k & t & n & idb & lenb & bs & HR & E & <- & ->); [|exact Hi].
    exists c, k, t, idb, lenb, bs, r. auto.
Qed.

Lemma assert_constructed_ok h : assert_constructed h = Ok tt <-> h_constructed h = true.
Proof. unfold assert_constructed. destruct (h_constructed h); split; congruence. Qed.
Lemma check_class_ok h c : check_class h c = Ok tt <-> h_class h = c.
Proof.
  unfold check_class. destruct (N.eqb_spec (class_num (h_class h)) (class_num c)) as [E|E].
  - split; [intros _|reflexivity]. destruct (h_class h), c; cbn in E; congruence.
  - split; [discriminate|]. intros <-. congruence.
Qed.
Lemma check_tag_ok h t : check_tag h t = Ok tt <-> h_tag h = t.
Proof.
  unfold check_tag. destruct (is_tag t (h_tag h)) eqn:E; rewrite ?is_tag_iff in E.
  - split; [intros _; exact E|reflexivity].
  - split; [discriminate|]. intros <-. unfold is_tag in E. rewrite N.eqb_refl in E. discriminate.
Qed.
Lemma assert_tag_ok h t : assert_tag h t = Ok tt <-> h_tag h = t.
Proof. unfold assert_tag. destruct (N.eqb_spec (h_tag h) t); split; congruence. Qed.
Lemma assert_class_ok h c : assert_class h c = Ok tt <-> h_class h = c.
Proof. exact (check_class_ok h c). Qed.

(** ** C29: EXPLICIT *)

(** The encoding: a constructed header of the given class and number around the inner encoding. *)
Theorem C29_explicit_encoding {A} (t : ty A) (v : A) c n (inner idb lenb : bytes) :
  wf t -> n < 2 ^ 32 -> encodes (syntax_of t) v inner -> blen inner < 2 ^ 24 ->
  ident_shortest c true n idb -> length_shortest (Definite (blen inner)) lenb ->
  let enc := idb ++ lenb ++ inner in
  let tagged := writer_of (TExplicit c n t) in
  to_vec (wr_ber tagged v) = Ok enc /\ to_vec (wr_der tagged v) = Ok enc
  /\ encode_tagged_explicit c n (wr_ber (writer_of t) v) = Ok (enc, blen enc)
  /\ encode_tagged_explicit c n (wr_der (writer_of t) v) = Ok (enc, blen enc)
  /\ (forall h, h_class h = c -> h_tag h = n ->
        encode (tp_explicit_tober h (wr_ber (writer_of t) v)) = Ok (enc, blen enc)
        /\ encode (tp_explicit_tober h (wr_der (writer_of t) v)) = Ok (enc, blen enc))
  /\ (blen enc < 2 ^ 24 -> reads_everywhere (TExplicit c n t) enc v).
Proof.
  intros Hwf Hn E Hl S1 S2 enc tagged. destruct (types_sound t Hwf) as (S & P & W & L & _).
  destruct (writer_encodes _ _ v inner W S E Hl) as [[W1 W2] [W3 W4]].
  pose proof (explicit_writer_sound c n _ _ W S) as [HW _].
  destruct (HW v inner c true n eq_refl E Hl) as (X1 & X2 & _).
  assert (U : forall w, writes w c true n inner -> encode w = Ok (enc, blen enc)).
  { intros w X. destruct (encode_writes w c true n inner X Hn) as (idb' & lenb' & Ee & _ & T1 & T2 & _); [lia|].
    rewrite <- (ident_shortest_unique _ _ _ _ _ S1 T1), <- (length_shortest_unique _ _ _ S2 T2) in Ee. exact Ee. }
  assert (V : forall w h, encode w = Ok (inner, blen inner) -> total_len w = Definite (blen inner) ->
    h_class h = c -> h_tag h = n -> encode (tp_explicit_tober h w) = Ok (enc, blen enc)
      /\ encode_tagged_explicit c n w = Ok (enc, blen enc)).
  { intros w h Ee El Hc Ht. assert (Q : encode (tp_explicit_tober h w) = Ok (enc, blen enc)).
    { apply U. split; [cbn; rewrite Hc, Ht; reflexivity|]. split; [exact El|exact Ee]. }
    split; [exact Q|]. rewrite <- Q. unfold encode_tagged_explicit.
    unfold encode at 1. cbn [tp_explicit_tober tb_write_content].
    replace (write_header (tober_header (header_new c true n (total_len w)))) with (write_header (tp_explicit_tober h w))
      by (unfold write_header, tober_header, tp_explicit_tober, header_new; cbn; rewrite Hc, Ht; reflexivity).
    unfold encode. destruct (write_header (tp_explicit_tober h w)) as [[a1 n1]| | |]; try reflexivity.
    destruct (write_header w) as [[a2 n2]| | |]; try reflexivity.
    destruct (tb_write_content w) as [[a3 n3]| | |]; try reflexivity.
    cbn [wseq bind]. rewrite app_assoc, N.add_assoc. reflexivity. }
  assert (U' : forall w, writes w c true n inner -> to_vec w = Ok enc) by (intros w X; unfold to_vec; rewrite (U w X); reflexivity).
  split; [exact (U' _ X1)|]. split; [exact (U' _ X2)|].
  split; [exact (proj2 (V _ (header_new c true n (Definite 0)) W1 W2 eq_refl eq_refl))|].
  split; [exact (proj2 (V _ (header_new c true n (Definite 0)) W3 W4 eq_refl eq_refl))|].
  split; [intros h Hc Ht; split; [exact (proj1 (V _ h W1 W2 Hc Ht))|exact (proj1 (V _ h W3 W4 Hc Ht))]|].
  intros Hb. apply (C26_encoding_roundtrip (TExplicit c n t) v enc); [split; assumption| |exact Hb].
  exists c, true, n, inner, idb, lenb. split; [reflexivity|]. split; [exact E|]. auto.
Qed.
Print Assumptions C29_explicit_encoding.

(** What the four readers of [TaggedExplicit] accept: exactly an object of that class and number, in
    constructed form, whose content starts with something the inner type reads. *)
Theorem C29_explicit_accept {T} c n (P : parser T) (L : legacy T) (i rem : bytes) (v : T) :
  bytes_ok i ->
  (ps_parse_ber (explicit_parser c n P) i = Ok (rem, v) <->
     exists content r, starts_with_ber_object c true n content i rem /\ ps_parse_ber P content = Ok (r, v))
  /\ (ps_parse_der (explicit_parser c n P) i = Ok (rem, v) <->
     exists content r, starts_with_object c true n content i rem /\ ps_parse_der P content = Ok (r, v))
  /\ (lg_from_ber (explicit_legacy c n L) i = Ok (rem, v) <->
     exists content r, starts_with_ber_object c true n content i rem /\ lg_from_ber L content = Ok (r, v))
  /\ (lg_from_der (explicit_legacy c n L) i = Ok (rem, v) <->
     exists content r, starts_with_object c true n content i rem /\ lg_from_der L content = Ok (r, v)).
Proof.
  intros Hi.
  assert (EC : forall parse h d r, explicit_content c n parse h d = Ok (r, v) <->
    h_constructed h = true /\ h_class h = c /\ h_tag h = n /\ parse d = Ok (r, v)).
  { intros parse h d r. unfold explicit_content. rewrite <- assert_constructed_ok, <- check_class_ok, <- check_tag_ok.
    destruct (assert_constructed h) as [[]| | |]; cbn [bind]; try (split; [discriminate|intros (E & _); discriminate]).
    destruct (check_class h c) as [[]| | |]; cbn [bind]; try (split; [discriminate|intros (_ & E & _); discriminate]).
    destruct (check_tag h n) as [[]| | |]; cbn [bind]; try (split; [discriminate|intros (_ & _ & E & _); discriminate]).
    tauto. }
  split; [|split; [|split]].
  - unfold explicit_parser. rewrite default_parse_ber_ok. split.
    + intros (a & r & E & _ & C). apply EC in C as (K & Cl & Ta & C).
      destruct (any_ber_object _ _ _ Hi E) as [O _]. rewrite K, Cl, Ta in O. exists (any_data a), r. auto.
    + intros (d & r & O & E). destruct (ber_object_any _ _ _ _ _ _ Hi O) as (h & Ea & Cl & K & Ta).
      exists (mk_any h d), r. split; [exact Ea|]. split; [apply is_tag_iff; exact Ta|]. apply EC. auto.
  - unfold explicit_parser. rewrite default_parse_der_ok by exact Hi. split.
    + intros (a & r & E & _ & C). apply EC in C as (K & Cl & Ta & C).
      destruct (any_der_object _ _ _ Hi E) as [O _]. rewrite K, Cl, Ta in O. exists (any_data a), r. auto.
    + intros (d & r & O & E). destruct (der_object_any _ _ _ _ _ _ Hi O) as (h & Ea & Cl & K & Ta).
      exists (mk_any h d), r. split; [exact Ea|]. split; [apply is_tag_iff; exact Ta|]. apply EC. auto.
  - cbn [explicit_legacy lg_from_ber]. unfold blanket_from_ber, explicit_try_from. split.
    + intros E. apply bind_ok in E as ([r a] & E & F). apply bind_ok in F as (x & F & G). injection G as -> ->.
      apply bind_ok in F as ([] & Ta & F). apply bind_ok in F as ([] & K & F). apply bind_ok in F as ([] & Cl & F).
      apply bind_ok in F as ([r' x'] & F & G). injection G as ->.
      apply assert_tag_ok in Ta. apply assert_constructed_ok in K. apply check_class_ok in Cl.
      destruct (any_ber_object _ _ _ Hi E) as [O _]. rewrite K, Cl, Ta in O. exists (any_data a), r'. split; [exact O|].
      destruct (lg_from_ber L (any_data a)); cbn [close] in F; congruence.
    + intros (d & r & O & E). destruct (ber_object_any _ _ _ _ _ _ Hi O) as (h & Ea & Cl & K & Ta).
      rewrite Ea. cbn [bind any_header any_data]. apply assert_tag_ok in Ta. apply assert_constructed_ok in K.
      apply check_class_ok in Cl. rewrite Ta, K, Cl, E. reflexivity.
  - cbn [explicit_legacy lg_from_der]. unfold explicit_from_der. rewrite from_der_any_eq. split.
    + intros E. apply bind_ok in E as ([r a] & E & F).
      apply bind_ok in F as ([] & Ta & F). apply bind_ok in F as ([] & K & F). apply bind_ok in F as ([] & Cl & F).
      apply bind_ok in F as ([r' x'] & F & G). injection G as -> ->.
      apply assert_tag_ok in Ta. apply assert_constructed_ok in K. apply check_class_ok in Cl.
      destruct (any_der_object _ _ _ Hi E) as [O _]. rewrite K, Cl, Ta in O. exists (any_data a), r'. auto.
    + intros (d & r & O & E). destruct (der_object_any _ _ _ _ _ _ Hi O) as (h & Ea & Cl & K & Ta).
      rewrite Ea. cbn [bind any_header any_data]. apply assert_tag_ok in Ta. apply assert_constructed_ok in K.
      apply check_class_ok in Cl. rewrite Ta, K, Cl. cbn [bind]. rewrite E. reflexivity.
Qed.
Print Assumptions C29_explicit_accept.

(** Another class, number or form is rejected. *)
Theorem C29_explicit_reject {T} c n (P : parser T) (L : legacy T) (i : bytes) c' k' n' d x :
  bytes_ok i -> starts_with_ber_object c' k' n' d i x -> (c', k', n') <> (c, true, n) ->
  forall rem v,
    ps_parse_ber (explicit_parser c n P) i <> Ok (rem, v) /\ ps_parse_der (explicit_parser c n P) i <> Ok (rem, v)
    /\ lg_from_ber (explicit_legacy c n L) i <> Ok (rem, v) /\ lg_from_der (explicit_legacy c n L) i <> Ok (rem, v).
Proof.
  intros Hi O Hne rem v. destruct (C29_explicit_accept c n P L i rem v Hi) as (A1 & A2 & A3 & A4).
  assert (G : forall d' , starts_with_ber_object c true n d' i rem -> False).
  { intros d' O'. destruct (ber_object_unique _ _ _ _ _ _ _ _ _ _ _ Hi O O') as (-> & -> & -> & _). congruence. }
  split; [|split; [|split]].
  - intros E. apply A1 in E as (d' & r & O' & _). exact (G _ O').
  - intros E. apply A2 in E as (d' & r & O' & _). exact (G _ (object_is_ber _ _ _ _ _ _ O')).
  - intros E. apply A3 in E as (d' & r & O' & _). exact (G _ O').
  - intros E. apply A4 in E as (d' & r & O' & _). exact (G _ (object_is_ber _ _ _ _ _ _ O')).
Qed.
Print Assumptions C29_explicit_reject.

(** [TaggedParser] checks class and number, and not the form; the [parse_der_tagged_explicit] helpers check
    the number only. *)
Theorem C29_tagged_parser_accept_partial {T} c n (L : legacy T) (i rem : bytes) (h : header) (v : T) :
  bytes_ok i ->
  (tp_parse (tp_explicit_from_ber L) c n i = Ok (rem, (h, v)) <->
     exists content r, parse_ber_any i = Ok (rem, mk_any h content)
       /\ starts_with_ber_object c (h_constructed h) n content i rem /\ lg_from_ber L content = Ok (r, v))
  /\ (tp_parse (tp_explicit_from_der L) c n i = Ok (rem, (h, v)) <->
     exists content r, parse_der_any i = Ok (rem, mk_any h content)
       /\ starts_with_object c (h_constructed h) n content i rem /\ lg_from_der L content = Ok (r, v))
  /\ (parse_der_tagged (tp_explicit_from_der L) n i = Ok (rem, (h, v)) <->
     exists content r, parse_der_any i = Ok (rem, mk_any h content)
       /\ starts_with_object (h_class h) (h_constructed h) n content i rem /\ lg_from_der L content = Ok (r, v)).
Proof.
  intros Hi.
  assert (G : forall (p : bytes -> res (bytes * any)) (f : bytes -> res (bytes * T)),
    (let* (rem, (h, x)) := let* (rem, a) := p i in let* (_, x) := f (any_data a) in Ok (rem, (any_header a, x)) in
     let* _ := assert_class h c in let* _ := assert_tag h n in Ok (rem, (h, x))) = Ok (rem, (h, v)) <->
    exists d r, p i = Ok (rem, mk_any h d) /\ h_class h = c /\ h_tag h = n /\ f d = Ok (r, v)).
  { intros p f. split.
    - intros E. apply bind_ok in E as ([r1 [h1 x1]] & E & F). apply bind_ok in E as ([r2 [h2 d2]] & E1 & E).
      apply bind_ok in E as ([r3 x3] & E2 & E). injection E as -> -> ->.
      apply bind_ok in F as ([] & F1 & F). apply bind_ok in F as ([] & F2 & F). injection F as -> -> ->.
      apply assert_class_ok in F1. apply assert_tag_ok in F2. exists d2, r3. auto.
    - intros (d & r & E & Cl & Ta & F). rewrite E. cbn [bind any_data any_header]. rewrite F. cbn [bind].
      apply assert_class_ok in Cl. apply assert_tag_ok in Ta. rewrite Cl, Ta. reflexivity. }
  assert (G' : forall (p : bytes -> res (bytes * any)) (f : bytes -> res (bytes * T)),
    (let* (rem, (h, x)) := let* (rem, a) := p i in let* (_, x) := f (any_data a) in Ok (rem, (any_header a, x)) in
     let* _ := assert_tag h n in Ok (rem, (h, x))) = Ok (rem, (h, v)) <->
    exists d r, p i = Ok (rem, mk_any h d) /\ h_tag h = n /\ f d = Ok (r, v)).
  { intros p f. split.
    - intros E. apply bind_ok in E as ([r1 [h1 x1]] & E & F). apply bind_ok in E as ([r2 [h2 d2]] & E1 & E).
      apply bind_ok in E as ([r3 x3] & E2 & E). injection E as -> -> ->.
      apply bind_ok in F as ([] & F2 & F). injection F as -> -> ->.
      apply assert_tag_ok in F2. exists d2, r3. auto.
    - intros (d & r & E & Ta & F). rewrite E. cbn [bind any_data any_header]. rewrite F. cbn [bind].
      apply assert_tag_ok in Ta. rewrite Ta. reflexivity. }
  unfold tp_parse, parse_der_tagged, tp_explicit_from_ber, tp_explicit_from_der. rewrite !from_der_any_eq.
  split; [|split].
  - rewrite (G parse_ber_any). split.
    + intros (d & r & E & Cl & Ta & F). exists d, r. split; [exact E|]. split; [|exact F].
      destruct (any_ber_object _ _ _ Hi E) as [O _]. cbn [any_header any_data] in O. rewrite Cl, Ta in O. exact O.
    + intros (d & r & E & O & F). exists d, r. split; [exact E|].
      destruct (any_ber_object _ _ _ Hi E) as [O' _]. cbn [any_header any_data] in O'.
      destruct (ber_object_unique _ _ _ _ _ _ _ _ _ _ _ Hi O O') as (-> & _ & -> & _). auto.
  - rewrite (G parse_der_any). split.
    + intros (d & r & E & Cl & Ta & F). exists d, r. split; [exact E|]. split; [|exact F].
      destruct (any_der_object _ _ _ Hi E) as [O _]. cbn [any_header any_data] in O. rewrite Cl, Ta in O. exact O.
    + intros (d & r & E & O & F). exists d, r. split; [exact E|].
      destruct (any_der_object _ _ _ Hi E) as [O' _]. cbn [any_header any_data] in O'.
      destruct (ber_object_unique _ _ _ _ _ _ _ _ _ _ _ Hi (object_is_ber _ _ _ _ _ _ O) (object_is_ber _ _ _ _ _ _ O'))
        as (-> & _ & -> & _). auto.
  - rewrite (G' parse_der_any). split.
    + intros (d & r & E & Ta & F). exists d, r. split; [exact E|]. split; [|exact F].
      destruct (any_der_object _ _ _ Hi E) as [O _]. cbn [any_header any_data] in O. rewrite Ta in O. exact O.
    + intros (d & r & E & O & F). exists d, r. split; [exact E|].
      destruct (any_der_object _ _ _ Hi E) as [O' _]. cbn [any_header any_data] in O'.
      destruct (ber_object_unique _ _ _ _ _ _ _ _ _ _ _ Hi (object_is_ber _ _ _ _ _ _ O) (object_is_ber _ _ _ _ _ _ O'))
        as (_ & _ & -> & _). auto.
Qed.
Print Assumptions C29_tagged_parser_accept_partial.

Example C29_case :
  let t := TExplicit ContextSpecific 3 (TBase BBool) in
  to_vec (wr_der (writer_of t) true) = Ok [0xa3; 3; 1; 1; 0xff]
  /\ lg_from_der (legacy_of t) [0xa3; 3; 1; 1; 0xff; 9] = Ok ([9], true)
  /\ ps_parse_ber (parser_of t) [0xa3; 3; 1; 1; 0xff; 9] = Ok ([9], true)
  /\ ps_parse_ber (parser_of t) [0xa4; 3; 1; 1; 0xff] = Err EUnexpectedTag
  /\ ps_parse_ber (parser_of t) [0x63; 3; 1; 1; 0xff] = Err EUnexpectedClass
  /\ lg_from_der (legacy_of t) [0x83; 3; 1; 1; 0xff] = Err EConstructExpected.
Proof. repeat split; vm_compute; reflexivity. Qed.

(** What is wrong with C29: a primitive outer header is accepted by [TaggedParser], another class by the
    helper; octets after the inner value are accepted everywhere, also in DER. *)
Theorem C29_form_refuted :
  exists i h, let L := legacy_of (TBase BBool) in
    tp_parse (tp_explicit_from_der L) ContextSpecific 3 i = Ok ([], (h, true)) /\ h_constructed h = false
    /\ tp_parse (tp_explicit_from_ber L) ContextSpecific 3 i = Ok ([], (h, true)).
Proof. exists [0x83; 3; 1; 1; 0xff]. eexists. cbv zeta. repeat split; vm_compute; reflexivity. Qed.
Print Assumptions C29_form_refuted.

Theorem C29_helper_class_refuted :
  exists i h1 h2, let L := legacy_of (TBase BBool) in
    parse_der_tagged (tp_explicit_from_der L) 3 (0xa3 :: i) = Ok ([], (h1, true)) /\ h_class h1 = ContextSpecific
    /\ parse_der_tagged (tp_explicit_from_der L) 3 (0x63 :: i) = Ok ([], (h2, true)) /\ h_class h2 = Application.
Proof. exists [3; 1; 1; 0xff]. do 2 eexists. cbv zeta. repeat split; vm_compute; reflexivity. Qed.
Print Assumptions C29_helper_class_refuted.

Theorem C29_trailing_refuted :
  exists i, let t := TExplicit ContextSpecific 3 (TBase BBool) in
    lg_from_der (legacy_of t) i = Ok ([], true) /\ ps_parse_der (parser_of t) i = Ok ([], true)
    /\ to_vec (wr_der (writer_of t) true) <> Ok i /\ i = [0xa3; 5; 1; 1; 0xff; 7; 7].
Proof. eexists. cbv zeta. repeat split; try (vm_compute; reflexivity). vm_compute. discriminate. Qed.
Print Assumptions C29_trailing_refuted.

(** [ber_encode_tagged_explicit] of a value with indefinite length: the outer header is indefinite as well,
    and its end-of-contents marker is missing. *)
Theorem C29_indefinite_refuted :
  exists enc, let w := indefinite_vec_tober [wr_ber (writer_of (TBase (BUint 1))) 1%Z] in
    encode_tagged_explicit ContextSpecific 0 w = Ok (enc, blen enc)
    /\ to_vec w = Ok [0x30; 0x80; 2; 1; 1; 0; 0] /\ enc = [0xa0; 0x80; 0x30; 0x80; 2; 1; 1; 0; 0]
    /\ ps_parse_ber (parser_of (TVec (TBase (BUint 1)))) [0x30; 0x80; 2; 1; 1; 0; 0] = Ok ([], [1%Z])
    /\ ps_parse_ber (parser_of (TExplicit ContextSpecific 0 (TVec (TBase (BUint 1))))) enc = Incomplete 1.
Proof. exists [0xa0; 0x80; 0x30; 0x80; 2; 1; 1; 0; 0]. repeat split; vm_compute; reflexivity. Qed.
Print Assumptions C29_indefinite_refuted.

(** ** C30: IMPLICIT *)

(** The content of an object does not depend on its class and tag. *)
Lemma object_content_free h h' i d :
  h_constructed h = h_constructed h' -> h_length h = h_length h' ->
  ber_object_content h i (S d) = ber_object_content h' i (S d).
Proof.
  intros K E. destruct (h_length h) as [n|] eqn:El.
  - rewrite !(definite_content _ _ n) by congruence. reflexivity.
  - unfold ber_object_content. cbn [skip_content]. rewrite <- E, El. unfold assert_constructed. rewrite K. reflexivity.
Qed.

Lemma parse_header_at c k u l idb lenb r :
  bytes_ok r -> readable_header c k u l idb lenb ->
  header_parse_ber (idb ++ lenb ++ r) = Ok (r, hdr c k u l idb lenb).
Proof.
  intros Hr HR. apply parse_header_ok.
  - rewrite app_assoc. apply bytes_ok_app. split; [eapply readable_ok; exact HR|exact Hr].
  - exists c, k, u, l, idb, lenb. destruct HR. auto.
Qed.

Lemma parse_der_header_at c k u l idb lenb r :
  bytes_ok r -> readable_header c k u l idb lenb ->
  header_parse_der (idb ++ lenb ++ r)
  = if is_definite l then Ok (r, hdr c k u l idb lenb) else Err (EDerConstraintFailed DCIndefiniteLength).
Proof. intros Hr HR. unfold header_parse_der. rewrite (parse_header_at c k u l) by assumption. reflexivity. Qed.

(** The identifier octets of another object with the same form, length and content. *)
Lemma replace_ident c k u l idb lenb c0 t0 idb0 :
  readable_header c k u l idb lenb -> t0 < 2 ^ 32 -> ident_shortest c0 k t0 idb0 ->
  readable_header c0 k t0 l idb0 lenb /\ t0 mod 2 ^ 32 = t0.
Proof.
  intros [(H1 & H2 & H3) [H4 H5]] Ht S1.
  destruct (write_tag_generic_ok c0 k t0 Ht) as (idb' & _ & S & Hl).
  rewrite (ident_shortest_unique _ _ _ _ _ S1 S) in *. apply ident_shortest_octets in S.
  split; [|apply N.mod_small; exact Ht]. split; [split; [exact S|auto]|split; assumption].
Qed.

(** Reading a [TaggedImplicit] is reading the inner type, after replacing the identifier octets by those of
    the inner type -- for the header of the wanted class and number; any other is an error. *)
Theorem C30_implicit_parse {T} c n (P : parser T) c' k u l idb lenb r :
  regular P -> header_free P -> bytes_ok r -> readable_header c' k u l idb lenb ->
  let i := idb ++ lenb ++ r in let p := implicit_parser c n P in
  (c' = c -> u mod 2 ^ 32 = n ->
     forall c0 t0 idb0, t0 < 2 ^ 32 -> ps_accept P t0 = true -> ident_shortest c0 k t0 idb0 ->
       ps_parse_ber p i = ps_parse_ber P (idb0 ++ lenb ++ r) /\ ps_parse_der p i = ps_parse_der P (idb0 ++ lenb ++ r))
  /\ ((c', u mod 2 ^ 32) <> (c, n) -> forall x, ps_parse_ber p i <> Ok x /\ ps_parse_der p i <> Ok x).
Proof.
  intros [R1 R2] HF Hr HR i p. subst i.
  assert (EB : ps_parse_ber p (idb ++ lenb ++ r) = parse_ber (codec_of p) (idb ++ lenb ++ r)) by reflexivity.
  assert (ED : ps_parse_der p (idb ++ lenb ++ r) = parse_der (codec_of p) (idb ++ lenb ++ r)) by reflexivity.
  split.
  - intros -> Hu c0 t0 idb0 Ht A S0. destruct (replace_ident _ _ _ _ _ _ _ _ _ HR Ht S0) as [HR0 Hm].
    rewrite EB, ED, R1, R2. unfold parse_ber, parse_der.
    rewrite (parse_header_at _ _ _ _ _ _ _ Hr HR), (parse_header_at _ _ _ _ _ _ _ Hr HR0).
    rewrite (parse_der_header_at _ _ _ _ _ _ _ Hr HR), (parse_der_header_at _ _ _ _ _ _ _ Hr HR0).
    cbn [bind]. split.
    + change (h_tag (hdr c k u l idb lenb)) with (u mod 2 ^ 32). change (h_tag (hdr c0 k t0 l idb0 lenb)) with (t0 mod 2 ^ 32).
      rewrite Hu, Hm. cbn [codec_of accept_tag]. rewrite A.
      assert (An : ps_accept p n = true) by (apply N.eqb_refl). rewrite An.
      unfold MAX_RECURSION. rewrite (object_content_free (hdr c k u l idb lenb) (hdr c0 k t0 l idb0 lenb) r 49 eq_refl eq_refl).
      destruct (ber_object_content (hdr c0 k t0 l idb0 lenb) r 50) as [[r2 d]| | |]; try reflexivity. cbn [bind ber_content codec_of].
      replace (ps_ber_content p (hdr c k u l idb lenb) d) with (ps_ber_content P (hdr c0 k t0 l idb0 lenb) d); [reflexivity|].
      cbn [p implicit_parser default_parser codec_parser ps_ber_content ber_content]. unfold implicit_content.
      unfold hdr at 2. rewrite check_class_same. cbn [bind]. symmetry. exact (proj1 (HF (hdr c k u l idb lenb) (hdr c0 k t0 l idb0 lenb) d eq_refl eq_refl)).
    + destruct l as [m|]; [|reflexivity]. cbn [is_definite bind]. 
      change (h_tag (hdr c k u (Definite m) idb lenb)) with (u mod 2 ^ 32). change (h_tag (hdr c0 k t0 (Definite m) idb0 lenb)) with (t0 mod 2 ^ 32).
      rewrite Hu, Hm. cbn [codec_of accept_tag hdr h_length]. rewrite A.
      assert (An : ps_accept p n = true) by (apply N.eqb_refl). rewrite An.
      destruct (take m r) as [[r2 d]| | |]; try reflexivity. cbn [bind der_content codec_of].
      replace (ps_der_content p (hdr c k u (Definite m) idb lenb) d) with (ps_der_content P (hdr c0 k t0 (Definite m) idb0 lenb) d); [reflexivity|].
      cbn [p implicit_parser default_parser codec_parser ps_der_content der_content]. unfold implicit_content.
      unfold hdr at 2. rewrite check_class_same. cbn [bind]. symmetry. exact (proj2 (HF (hdr c k u (Definite m) idb lenb) (hdr c0 k t0 (Definite m) idb0 lenb) d eq_refl eq_refl)).
  - intros Hne x. rewrite EB, ED.
    assert (Hne' : ps_accept p (u mod 2 ^ 32) = true -> forall h d y f, h_class h = c' -> implicit_content c f h d <> Ok (y : bytes * T)).
    { intros A h d y f Hc E. apply N.eqb_eq in A. apply bind_ok in E as ([] & E & _). apply check_class_ok in E. congruence. }
    unfold parse_ber, parse_der. rewrite (parse_header_at _ _ _ _ _ _ _ Hr HR), (parse_der_header_at _ _ _ _ _ _ _ Hr HR). cbn [bind].
    change (h_tag (hdr c' k u l idb lenb)) with (u mod 2 ^ 32). cbn [codec_of accept_tag ber_content der_content].
    split.
    + destruct (ps_accept p (u mod 2 ^ 32)) eqn:A; [|discriminate]. intros E. apply bind_ok in E as ([r2 d] & _ & E).
      apply bind_ok in E as (y & E & _). exact (Hne' eq_refl (hdr c' k u l idb lenb) d y (ps_ber_content P) eq_refl E).
    + destruct (is_definite l); [|discriminate]. cbn [bind hdr h_length h_tag]. destruct l as [m|]; [|discriminate].
      destruct (ps_accept p (u mod 2 ^ 32)) eqn:A; [|discriminate]. intros E. apply bind_ok in E as ([r2 d] & _ & E).
      apply bind_ok in E as (y & E & _). exact (Hne' eq_refl (hdr c' k u (Definite m) idb lenb) d y (ps_der_content P) eq_refl E).
Qed.
Print Assumptions C30_implicit_parse.

(** The readers built on [Any].  [with_header h] pairs the value with the header, as [TaggedParser] does. *)
Definition with_header {T} (h : header) (r : res (bytes * T)) : res (bytes * (header * T)) :=
  match r with Ok (rem, x) => Ok (rem, (h, x)) | Err e => Err e | Incomplete n => Incomplete n | Panic => Panic end.

Lemma parse_ber_any_at c k u l idb lenb r :
  bytes_ok r -> readable_header c k u l idb lenb ->
  parse_ber_any (idb ++ lenb ++ r)
  = let* (rem, d) := ber_object_content (hdr c k u l idb lenb) r MAX_RECURSION in Ok (rem, mk_any (hdr c k u l idb lenb) d).
Proof. intros Hr HR. unfold parse_ber_any. rewrite (parse_header_at _ _ _ _ _ _ _ Hr HR). reflexivity. Qed.

Lemma parse_der_any_at c k u l idb lenb r :
  bytes_ok r -> readable_header c k u l idb lenb ->
  parse_der_any (idb ++ lenb ++ r)
  = match l with
    | Definite n => let* (rem, d) := take n r in Ok (rem, mk_any (hdr c k u l idb lenb) d)
    | Indefinite => Err (EDerConstraintFailed DCIndefiniteLength)
    end.
Proof.
  intros Hr HR. unfold parse_der_any. rewrite (parse_der_header_at _ _ _ _ _ _ _ Hr HR). destruct l; reflexivity.
Qed.

Theorem C30_implicit_from_partial {T} c n (L : legacy T) c' k u l idb lenb r :
  class_free L -> (forall i, lg_from_ber L i = blanket_from_ber (lg_try_from L) i) -> lg_tag L < 2 ^ 32 ->
  bytes_ok r -> readable_header c' k u l idb lenb ->
  let i := idb ++ lenb ++ r in let J := implicit_legacy c n L in let h := hdr c' k u l idb lenb in
  (c' = c -> u mod 2 ^ 32 = n ->
     forall c0 idb0, ident_shortest c0 k (lg_tag L) idb0 ->
       let i0 := idb0 ++ lenb ++ r in
       lg_from_ber J i = lg_from_ber L i0
       /\ lg_from_der J i = (if is_definite l then lg_from_ber L i0 else Err (EDerConstraintFailed DCIndefiniteLength))
       /\ tp_parse (tp_implicit_from_ber L) c n i = with_header h (lg_from_ber L i0)
       /\ (forall p, L = codec_legacy (lg_tag L) p ->
             tp_parse (tp_implicit_from_der L) c n i = with_header h (lg_from_der L i0)))
  /\ ((c', u mod 2 ^ 32) <> (c, n) -> forall x y,
       lg_from_ber J i <> Ok x /\ lg_from_der J i <> Ok x
       /\ tp_parse (tp_implicit_from_ber L) c n i <> Ok y /\ tp_parse (tp_implicit_from_der L) c n i <> Ok y).
Proof.
  intros HF HB Ht Hr HR i J h. subst i. split.
  - intros -> Hu c0 idb0 S0 i0. subst i0. destruct (replace_ident _ _ _ _ _ _ _ _ _ HR Ht S0) as [HR0 Hm].
    set (h0 := hdr c0 k (lg_tag L) l idb0 lenb).
    assert (F : forall d, lg_try_from L (mk_any (with_tag h (lg_tag L)) d) = lg_try_from L (mk_any h0 d)
                       /\ lg_check L (mk_any (with_tag h (lg_tag L)) d) = lg_check L (mk_any h0 d)).
    { intros d. apply HF; try reflexivity. cbn. symmetry. exact Hm. }
    assert (Ta : assert_tag h n = Ok tt) by (apply assert_tag_ok; exact Hu).
    assert (Cl : check_class h c = Ok tt) by (apply check_class_ok; reflexivity).
    assert (Cl' : assert_class h c = Ok tt) by (apply assert_class_ok; reflexivity).
    assert (EB : parse_ber_any (idb ++ lenb ++ r) = let* (rem, d) := ber_object_content h0 r MAX_RECURSION in Ok (rem, mk_any h d)).
    { rewrite (parse_ber_any_at _ _ _ _ _ _ _ Hr HR). unfold MAX_RECURSION. fold h.
      rewrite (object_content_free h h0 r 49 eq_refl eq_refl). reflexivity. }
    assert (ED : parse_der_any (idb ++ lenb ++ r) = match l with
      | Definite n => let* (rem, d) := take n r in Ok (rem, mk_any h d)
      | Indefinite => Err (EDerConstraintFailed DCIndefiniteLength) end) by exact (parse_der_any_at _ _ _ _ _ _ _ Hr HR).
    assert (R : lg_from_ber L (idb0 ++ lenb ++ r)
                = let* (rem, d) := ber_object_content h0 r MAX_RECURSION in
                  let* x := lg_try_from L (mk_any h0 d) in Ok (rem, x)).
    { rewrite HB. unfold blanket_from_ber. rewrite (parse_ber_any_at _ _ _ _ _ _ _ Hr HR0). fold h0.
      destruct (ber_object_content h0 r MAX_RECURSION) as [[r2 d]| | |]; reflexivity. }
    split; [|split; [|split]].
    + rewrite R. cbn [J implicit_legacy lg_from_ber]. unfold blanket_from_ber. rewrite EB.
      destruct (ber_object_content h0 r MAX_RECURSION) as [[r2 d]| | |]; try reflexivity. cbn [bind].
      unfold implicit_try_from. cbn [any_header any_data]. rewrite Ta, Cl. cbn [bind]. rewrite (proj1 (F d)). reflexivity.
    + rewrite R. cbn [J implicit_legacy lg_from_der]. unfold implicit_from_der. rewrite from_der_any_eq, ED.
      destruct l as [m|]; [|reflexivity]. cbn [is_definite]. unfold MAX_RECURSION.
      rewrite (definite_content h0 r m 49 eq_refl). destruct (take m r) as [[r2 d]| | |]; try reflexivity. cbn [bind].
      unfold implicit_try_from. cbn [any_header any_data]. rewrite Ta, Cl. cbn [bind]. rewrite (proj1 (F d)). reflexivity.
    + rewrite R. unfold tp_parse, tp_implicit_from_ber. rewrite EB.
      destruct (ber_object_content h0 r MAX_RECURSION) as [[r2 d]| | |]; try reflexivity. cbn [bind any_header any_data].
      rewrite (proj1 (F d)). destruct (lg_try_from L (mk_any h0 d)); try reflexivity. cbn [bind].
      rewrite Cl', Ta. reflexivity.
    + intros p EL. unfold tp_parse, tp_implicit_from_der. rewrite from_der_any_eq, ED.
      replace (lg_from_der L (idb0 ++ lenb ++ r)) with
        (let* (rem, a) := parse_der_any (idb0 ++ lenb ++ r) in
         let* _ := lg_check L a in let* x := lg_try_from L a in Ok (rem, x)) by (rewrite EL; reflexivity).
      rewrite (parse_der_any_at _ _ _ _ _ _ _ Hr HR0). fold h0.
      destruct l as [m|]; [|reflexivity]. destruct (take m r) as [[r2 d]| | |]; try reflexivity. cbn [bind any_header any_data].
      rewrite (proj1 (F d)), (proj2 (F d)). destruct (lg_check L (mk_any h0 d)) as [[]| | |]; try reflexivity. cbn [bind].
      destruct (lg_try_from L (mk_any h0 d)); try reflexivity. cbn [bind]. rewrite Cl', Ta. reflexivity.
  - intros Hne x y.
    assert (N1 : forall d z, implicit_try_from c n L (mk_any h d) <> Ok z).
    { intros d z E. apply bind_ok in E as ([] & E1 & E). apply bind_ok in E as ([] & E2 & _).
      apply assert_tag_ok in E1. apply check_class_ok in E2. cbn in E1, E2. congruence. }
    assert (N2 : assert_class h c = Ok tt -> assert_tag h n = Ok tt -> False).
    { intros E2 E1. apply assert_tag_ok in E1. apply assert_class_ok in E2. cbn in E1, E2. congruence. }
    assert (PB : forall rem a, parse_ber_any (idb ++ lenb ++ r) = Ok (rem, a) -> any_header a = h).
    { intros rem a E. rewrite (parse_ber_any_at _ _ _ _ _ _ _ Hr HR) in E. apply bind_ok in E as ([r2 d] & _ & E).
      injection E as <- <-. reflexivity. }
    assert (PD : forall rem a, from_der any_codec (idb ++ lenb ++ r) = Ok (rem, a) -> any_header a = h).
    { intros rem a E. rewrite from_der_any_eq, (parse_der_any_at _ _ _ _ _ _ _ Hr HR) in E. destruct l; [|discriminate].
      apply bind_ok in E as ([r2 d] & _ & E). injection E as <- <-. reflexivity. }
    split; [|split; [|split]].
    + intros E. apply bind_ok in E as ([r2 [h2 d]] & E1 & E). apply PB in E1. cbn in E1. subst h2.
      apply bind_ok in E as (z & E & _). exact (N1 _ _ E).
    + intros E. apply bind_ok in E as ([r2 [h2 d]] & E1 & E). apply PD in E1. cbn in E1. subst h2.
      apply bind_ok in E as (z & E & _). exact (N1 _ _ E).
    + intros E. apply bind_ok in E as ([r2 [h2 z]] & E1 & E). apply bind_ok in E as ([] & C1 & E).
      apply bind_ok in E as ([] & C2 & _). apply bind_ok in E1 as ([r3 a] & E1 & E2). apply PB in E1.
      apply bind_ok in E2 as (w & _ & E2). injection E2 as <- <- <-. rewrite E1 in *. exact (N2 C1 C2).
    + intros E. apply bind_ok in E as ([r2 [h2 z]] & E1 & E). apply bind_ok in E as ([] & C1 & E).
      apply bind_ok in E as ([] & C2 & _). apply bind_ok in E1 as ([r3 a] & E1 & E2). apply PD in E1.
      apply bind_ok in E2 as (u1 & _ & E2). apply bind_ok in E2 as (w & _ & E2). injection E2 as <- <- <-.
      rewrite E1 in *. exact (N2 C1 C2).
Qed.
Print Assumptions C30_implicit_from_partial.

(** The types of the model meet the hypotheses of the two theorems. *)
Lemma C30_hypotheses {A} (t : ty A) :
  wf t -> implicit_ok t ->
  regular (parser_of t) /\ header_free (parser_of t)
  /\ (has_legacy t -> class_free (legacy_of t) /\ forall i, lg_from_ber (legacy_of t) i = blanket_from_ber (lg_try_from (legacy_of t)) i).
Proof.
  intros Hwf Ho. destruct (types_sound t Hwf) as (_ & [R _] & _ & L & I). destruct (I Ho) as (I1 & _ & I3).
  split; [exact R|]. split; [exact I1|]. intros HL. split; [exact (I3 HL)|]. exact (proj1 (L HL)).
Qed.

Lemma tober_form {A} (t : ty A) v : wf t ->
  tb_constructed (wr_ber (writer_of t) v) = snd (fst (sx_ident (syntax_of t) v))
  /\ tb_constructed (wr_der (writer_of t) v) = snd (fst (sx_ident (syntax_of t) v)).
Proof.
  intros Hwf. destruct t as [A b|A t|A n t|A t|A cmp t|A c n t|A c n t]; try (split; reflexivity).
  - destruct b; split; reflexivity.
  - destruct Hwf as (_ & Ho & Hwf). destruct (types_sound t Hwf) as (_ & _ & _ & _ & I). destruct (I Ho) as (_ & I2 & _).
    cbn [writer_of implicit_writer wr_ber wr_der implicit_tober tb_constructed syntax_of implicit_syntax sx_ident].
    destruct (sx_ident (syntax_of t) v) as [[c1 k1] t1] eqn:E. cbn [fst snd]. rewrite (I2 _ _ _ _ E). auto.
Qed.

(** The encoding: only the identifier octets differ from those of the inner type. *)
Theorem C30_implicit_encoding {A} (t : ty A) (v : A) c n c0 k t0 (cb idb0 idb lenb : bytes) :
  wf t -> n < 2 ^ 32 -> sx_ident (syntax_of t) v = (c0, k, t0) -> sx_content (syntax_of t) v cb -> blen cb < 2 ^ 24 ->
  ident_shortest c0 k t0 idb0 -> ident_shortest c k n idb -> length_shortest (Definite (blen cb)) lenb ->
  let enc0 := idb0 ++ lenb ++ cb in let enc := idb ++ lenb ++ cb in
  forall w, w = wr_ber (writer_of t) v \/ w = wr_der (writer_of t) v ->
    to_vec w = Ok enc0
    /\ encode_tagged_implicit c n w = Ok (enc, blen enc)
    /\ (forall h, h_class h = c -> h_tag h = n -> k = false -> encode (tp_implicit_tober h w) = Ok (enc, blen enc))
    /\ (implicit_ok t ->
          to_vec (wr_ber (writer_of (TImplicit c n t)) v) = Ok enc /\ to_vec (wr_der (writer_of (TImplicit c n t)) v) = Ok enc
          /\ (blen enc < 2 ^ 24 -> reads_everywhere (TImplicit c n t) enc v)).
Proof.
  intros Hwf Hn E1 E2 Hl S0 S1 S2 enc0 enc w Hw. destruct (types_sound t Hwf) as (S & P & W & L & I).
  destruct (S _ _ _ _ _ E1 E2) as [Ht Hcb].
  assert (X : writes w c0 k t0 cb /\ tb_constructed w = k).
  { destruct W as [W _]. destruct (W _ _ _ _ _ E1 E2 Hl) as (W1 & W2 & _). destruct (tober_form t v Hwf) as [F1 F2].
    rewrite E1 in F1, F2. destruct Hw as [-> | ->]; auto. }
  destruct X as [X Fk].
  assert (U : forall w' c' t' idb', writes w' c' k t' cb -> t' < 2 ^ 32 -> ident_shortest c' k t' idb' ->
    encode w' = Ok (idb' ++ lenb ++ cb, blen (idb' ++ lenb ++ cb))).
  { intros w' c' t' idb' X' Ht' S'. destruct (encode_writes w' c' k t' cb X' Ht') as (idb'' & lenb' & Ee & _ & T1 & T2 & _); [lia|].
    rewrite (ident_shortest_unique _ _ _ _ _ S' T1), (length_shortest_unique _ _ _ S2 T2). exact Ee. }
  split; [unfold to_vec; rewrite (U _ _ _ _ X Ht S0); reflexivity|]. destruct X as (X1 & X2 & X3).
  split; [|split].
  - change (encode (implicit_tober c (tb_constructed w) n w) = Ok (enc, blen enc)). apply (U _ c n); [|exact Hn|exact S1].
    rewrite Fk. split; [reflexivity|]. split; [exact X2|exact X3].
  - intros h Hc Hh Hk. apply (U _ c n); [|exact Hn|exact S1]. split; [cbn; rewrite Hc, Hh, Hk; reflexivity|].
    split; [exact X2|exact X3].
  - intros Ho. assert (Hwf' : wf (TImplicit c n t)) by (cbn; auto).
    destruct (types_sound _ Hwf') as (S' & P' & W' & L' & _).
    assert (E1' : sx_ident (syntax_of (TImplicit c n t)) v = (c, k, n)) by (cbn; rewrite E1; reflexivity).
    destruct W' as [W' _]. destruct (W' _ _ _ _ _ E1' E2 Hl) as (W1 & W2 & _).
    assert (V : forall w', writes w' c k n cb -> to_vec w' = Ok enc).
    { intros w' X'. unfold to_vec. rewrite (U _ _ _ _ X' Hn S1). reflexivity. }
    split; [exact (V _ W1)|]. split; [exact (V _ W2)|]. intros Hb.
    apply (C26_encoding_roundtrip (TImplicit c n t) v enc Hwf'); [|exact Hb].
    exists c, k, n, cb, idb, lenb. auto.
Qed.
Print Assumptions C30_implicit_encoding.

Example C30_case :
  let t := TImplicit ContextSpecific 3 (TVec (TBase (BUint 1))) in
  wf t /\ to_vec (wr_der (writer_of (TVec (TBase (BUint 1)))) [5%Z]) = Ok [0x30; 3; 2; 1; 5]
  /\ to_vec (wr_der (writer_of t) [5%Z]) = Ok [0xa3; 3; 2; 1; 5]
  /\ lg_from_der (legacy_of t) [0xa3; 3; 2; 1; 5; 9] = Ok ([9], [5%Z])
  /\ ps_parse_ber (parser_of t) [0xa3; 0x80; 2; 1; 5; 0; 0; 9] = Ok ([9], [5%Z])
  /\ ps_parse_ber (parser_of t) [0xa4; 3; 2; 1; 5] = Err EUnexpectedTag
  /\ lg_from_ber (legacy_of t) [0x63; 3; 2; 1; 5] = Err EUnexpectedClass.
Proof. split; [cbn; repeat split; lia|]. repeat split; vm_compute; reflexivity. Qed.

(** What is wrong with C30: [TaggedImplicit::from_der] does not check the DER constraints of the inner
    type; ... *)
Theorem C30_der_constraints_refuted :
  exists i0 i, let t := TImplicit ContextSpecific 0 (TBase BBool) in
    i0 = [1; 1; 1] /\ i = [0x80; 1; 1]
    /\ lg_from_der (legacy_of (TBase BBool)) i0 = Err (EDerConstraintFailed DCInvalidBoolean)
    /\ lg_from_der (legacy_of t) i = Ok ([], true)
    /\ (exists h, tp_parse (tp_implicit_from_ber (legacy_of (TBase BBool))) ContextSpecific 0 i = Ok ([], (h, true)))
    /\ tp_parse (tp_implicit_from_der (legacy_of (TBase BBool))) ContextSpecific 0 i = Err (EDerConstraintFailed DCInvalidBoolean).
Proof.
  exists [1; 1; 1], [0x80; 1; 1]. cbv zeta. split; [reflexivity|]. split; [reflexivity|].
  split; [vm_compute; reflexivity|]. split; [vm_compute; reflexivity|].
  split; [eexists; vm_compute; reflexivity|vm_compute; reflexivity].
Qed.
Print Assumptions C30_der_constraints_refuted.

(** ... [TaggedParser<Implicit, _>] and implicitly tagged [SetOf] are written in primitive form. *)
Theorem C30_form_refuted :
  exists h enc, let L := legacy_of (TVec (TBase (BUint 1))) in
    tp_parse (tp_implicit_from_der L) ContextSpecific 0 [0xa0; 3; 2; 1; 5] = Ok ([], (h, [5%Z]))
    /\ to_vec (tp_implicit_tober h (wr_der (writer_of (TVec (TBase (BUint 1)))) [5%Z])) = Ok enc
    /\ enc = [0x80; 3; 2; 1; 5]
    /\ tp_parse (tp_implicit_from_der L) ContextSpecific 0 enc = Err EConstructExpected.
Proof. do 2 eexists. cbv zeta. split; [vm_compute; reflexivity|]. split; [vm_compute; reflexivity|]. split; [reflexivity|vm_compute; reflexivity]. Qed.
Print Assumptions C30_form_refuted.

(** ** C31: distinct encodings *)

Theorem C31_injective {A} (t : ty A) (v1 v2 : A) (n1 n2 : N) (e1 e2 x y : bytes) :
  wf t -> sx_valid (syntax_of t) v1 -> sx_valid (syntax_of t) v2 ->
  total_len (wr_der (writer_of t) v1) = Definite n1 -> n1 < 2 ^ 24 ->
  total_len (wr_der (writer_of t) v2) = Definite n2 -> n2 < 2 ^ 24 ->
  to_vec (wr_der (writer_of t) v1) = Ok e1 -> to_vec (wr_der (writer_of t) v2) = Ok e2 ->
  e1 ++ x = e2 ++ y -> bytes_ok x -> v1 = v2 /\ e1 = e2 /\ x = y.
Proof.
  intros Hwf V1 V2 L1 B1 L2 B2 E1 E2 E Hx.
  destruct (C26_container_roundtrip t v1 n1 Hwf V1 L1 B1) as (e1' & Enc1 & Len1 & _ & D1 & R1).
  destruct (C26_container_roundtrip t v2 n2 Hwf V2 L2 B2) as (e2' & Enc2 & Len2 & _ & D2 & R2).
  assert (e1' = e1) by congruence. assert (e2' = e2) by congruence. subst e1' e2'.
  assert (Hy : bytes_ok y).
  { destruct (types_sound t Hwf) as (S & _). pose proof (encodes_ok _ _ _ S Enc1) as H1.
    assert (H : bytes_ok (e2 ++ y)) by (rewrite <- E; apply bytes_ok_app; auto). apply bytes_ok_app in H. apply H. }
  destruct (R1 x Hx) as (P1 & _). destruct (R2 y Hy) as (P2 & _). rewrite E, P2 in P1. injection P1 as <- <-.
  split; [reflexivity|]. split; [|reflexivity]. apply app_inv_tail in E. exact E.
Qed.
Print Assumptions C31_injective.

Example C31_case :
  sx_valid (syntax_of sample_ty) [[7]] /\ sx_valid (syntax_of sample_ty) [[7]; []]
  /\ to_vec (wr_der (writer_of sample_ty) [[7]]) = Ok [0x30; 5; 0xa1; 3; 0x82; 1; 7]
  /\ to_vec (wr_der (writer_of sample_ty) [[7]; []]) = Ok [0x30; 9; 0xa1; 3; 0x82; 1; 7; 0xa1; 2; 0x82; 0].
Proof. split; [repeat constructor|]. split; [repeat constructor|]. split; vm_compute; reflexivity. Qed.

(** ** C42: the order of the elements of a SET OF *)

(** X.690 11.6: the encodings of the elements appear in ascending order, compared as octet strings.  Two
    encodings of which neither is a prefix of the other differ at some octet. *)
Definition octets_lt (a b : bytes) : Prop :=
  exists p x y a' b', a = p ++ x :: a' /\ b = p ++ y :: b' /\ x < y.
Fixpoint octets_ascending (es : list bytes) : Prop :=
  match es with
  | e :: r => match r with f :: _ => octets_lt e f | [] => True end /\ octets_ascending r
  | [] => True
  end.

Lemma octets_lt_app p a b : octets_lt a b -> octets_lt (p ++ a) (p ++ b).
Proof. intros (q & x & y & a' & b' & -> & -> & H). exists (p ++ q), x, y, a', b'. rewrite !app_assoc. auto. Qed.

Lemma val_lt_octets a b : bytes_ok a -> bytes_ok b -> length a = length b -> (val a < val b)%Z -> octets_lt a b.
Proof.
  revert b. induction a as [|x a IH]; intros [|y b] Ha Hb L H; try discriminate.
  apply bytes_ok_cons in Ha as [Hx Ha]. apply bytes_ok_cons in Hb as [Hy Hb]. injection L as L.
  rewrite !val_cons, L in H. pose proof (val_bound a Ha) as Ba. pose proof (val_bound b Hb) as Bb. rewrite L in Ba.
  destruct (N.lt_trichotomy x y) as [C|[C|C]].
  - exists [], x, y, a, b. auto.
  - subst y. apply (octets_lt_app [x]). apply IH; try assumption. lia.
  - exfalso. assert (Z.of_N y + 1 <= Z.of_N x)%Z by lia. nia.
Qed.

Lemma uint_encodings_ordered w v1 v2 e1 e2 :
  (1 <= w <= 16)%nat -> encodes (uint_syntax w) v1 e1 -> encodes (uint_syntax w) v2 e2 -> (v1 < v2)%Z -> octets_lt e1 e2.
Proof.
  intros Hw (c1 & k1 & t1 & b1 & i1 & l1 & I1 & [V1 (O1 & S1 & T1)] & Id1 & Le1 & ->)
    (c2 & k2 & t2 & b2 & i2 & l2 & I2 & [V2 (O2 & S2 & T2)] & Id2 & Le2 & ->) Hlt.
  cbn in I1, I2. injection I1 as <- <- <-. injection I2 as <- <- <-.
  rewrite (ident_shortest_unique _ _ _ _ _ Id2 Id1). apply octets_lt_app. clear Id1 Id2 i1 i2.
  destruct V1 as [V1 _], V2 as [V2 U2].
  pose proof (proj1 (shortest_iff b1 O1) S1) as N1. pose proof (proj1 (shortest_iff b2 O2) S2) as N2.
  assert (Far : forall b v, bytes_ok b -> nonredundant b -> twos b = v -> (0 <= v)%Z -> (2 <= length b)%nat ->
                  (128 * pw (length b - 2) <= v)%Z).
  { intros [|a [|b r]] v O N T V L; cbn [length] in *; try lia. destruct (twos_far a b r O N) as [F|F]; [|pose proof (pw_pos (length r)); lia].
    rewrite Nat.sub_succ, Nat.sub_succ, Nat.sub_0_r. lia. }
  assert (Near : forall b v, bytes_ok b -> twos b = v -> (1 <= length b)%nat -> (v < 128 * pw (length b - 1))%Z).
  { intros [|a r] v O T L; cbn [length] in *; [lia|]. pose proof (twos_bound a r O). rewrite Nat.sub_succ, Nat.sub_0_r. lia. }
  assert (Ne1 : (1 <= length b1)%nat) by (destruct b1; [destruct S1; congruence|cbn; lia]).
  assert (Ne2 : (1 <= length b2)%nat) by (destruct b2; [destruct S2; congruence|cbn; lia]).
  assert (L12 : (length b1 <= length b2)%nat).
  { destruct (Nat.le_gt_cases (length b1) (length b2)) as [H|H]; [exact H|exfalso].
    pose proof (Far b1 v1 O1 N1 T1 V1 ltac:(lia)). pose proof (Near b2 v2 O2 T2 Ne2).
    pose proof (pw_mono (length b2 - 1) (length b1 - 2) ltac:(lia)). lia. }
  assert (B2 : (length b2 <= 17)%nat).
  { destruct (Nat.le_gt_cases (length b2) 17) as [H|H]; [exact H|exfalso].
    pose proof (Far b2 v2 O2 N2 T2 V2 ltac:(lia)). rewrite pow2_pw in U2.
    pose proof (pw_mono w (length b2 - 2) ltac:(lia)). lia. }
  assert (Short : forall (b l : bytes), (length b <= 17)%nat -> length_shortest (Definite (blen b)) l -> l = [blen b]).
  { intros b l H Hl. apply (length_shortest_unique _ _ _ Hl). constructor. unfold blen. lia. }
  rewrite (Short b1 l1 ltac:(lia) Le1), (Short b2 l2 B2 Le2).
  destruct (Nat.eq_dec (length b1) (length b2)) as [E|E].
  - unfold blen. rewrite E. apply octets_lt_app. apply val_lt_octets; try assumption.
    rewrite <- !twos_val_nonneg by (assumption || lia). lia.
  - exists [], (blen b1), (blen b2), b1, b2. split; [reflexivity|]. split; [reflexivity|]. unfold blen. lia.
Qed.

(** A set whose order of values agrees with the order of encodings is written in ascending order. *)
Lemma set_order {A} (S : syntax A) cmp vs cb :
  (forall x y e f, cmp x y = Lt -> encodes S x e -> encodes S y f -> octets_lt e f) ->
  ascending cmp vs -> items_content S vs cb ->
  exists es, Forall2 (encodes S) vs es /\ cb = concat es /\ octets_ascending es.
Proof.
  intros Ho Ha H. induction H as [|v vs enc bs E H IH].
  - exists []. split; [constructor|]. split; [reflexivity|exact I].
  - destruct Ha as [Ha1 Ha2]. destruct (IH Ha2) as (es & F & -> & As). exists (enc :: es).
    split; [constructor; assumption|]. split; [reflexivity|]. split; [|exact As].
    destruct F as [|y f vs' es' Ef F]; [exact I|]. inversion Ha1; subst. eapply Ho; eassumption.
Qed.

(** Proved for sets of unsigned integers.  The order is that of the Rust type, which for other element
    types is not the order of the encodings; and the decoder accepts any order: see below. *)
Theorem C42_unsigned_order_partial w (vs : list Z) (n : N) :
  let t := TBTreeSet Z.compare (TBase (BUint w)) in
  (1 <= w <= 16)%nat -> Forall (in_unsigned w) vs -> ascending Z.compare vs ->
  total_len (wr_der (writer_of t) vs) = Definite n -> n < 2 ^ 24 ->
  exists idb lenb es,
    to_vec (wr_der (writer_of t) vs) = Ok (idb ++ lenb ++ concat es)
    /\ ident_shortest Universal true 17 idb /\ length_shortest (Definite (blen (concat es))) lenb
    /\ Forall2 (encodes (uint_syntax w)) vs es /\ octets_ascending es.
Proof.
  intros t Hw Hv Ha L Hn.
  assert (Hwf : wf t) by (split; [intros a b; apply Z.compare_antisym|exact Hw]).
  destruct (C26_container_roundtrip t vs n Hwf) as (enc & E & En & _ & D & _); [|exact L|exact Hn|].
  { split; [|exact Ha]. exact Hv. }
  destruct E as (c & k & u & cb & idb & lenb & I1 & [_ C] & S1 & S2 & ->). cbn in I1. injection I1 as <- <- <-.
  destruct (set_order (uint_syntax w) Z.compare vs cb) as (es & F & -> & As); [|exact Ha|exact C|].
  { intros x y e f Hxy Ex Ey. apply (uint_encodings_ordered w x y); try assumption. }
  exists idb, lenb, es. auto.
Qed.
Print Assumptions C42_unsigned_order_partial.

Example C42_case :
  let t := TBTreeSet Z.compare (TBase (BUint 2)) in
  Forall (in_unsigned 2) [1; 255; 256]%Z /\ ascending Z.compare [1; 255; 256]%Z
  /\ to_vec (wr_der (writer_of t) [1; 255; 256]%Z) = Ok [0x31; 11; 2; 1; 1; 2; 2; 0; 0xff; 2; 2; 1; 0].
Proof.
  split; [repeat constructor; unfold in_unsigned; lia|]. split; [repeat constructor|]. vm_compute. reflexivity.
Qed.

(** A set of signed integers: -1 comes before 1, with the greater encoding.  Likewise for octet strings. *)
Theorem C42_signed_order_refuted :
  exists vs e1 e2, let t := TBTreeSet Z.compare (TBase (BInt 1)) in
    Forall (in_signed 1) vs /\ ascending Z.compare vs /\ Forall2 (encodes (int_syntax 1)) vs [e1; e2]
    /\ to_vec (wr_der (writer_of t) vs) = Ok (0x31 :: 6 :: e1 ++ e2) /\ octets_lt e2 e1.
Proof.
  exists [-1; 1]%Z, [2; 1; 0xff], [2; 1; 1]. cbv zeta.
  split; [repeat constructor; unfold in_signed; lia|]. split; [repeat constructor|]. split.
  - assert (Sh : forall b, b < 256 -> shortest [b]).
    { intros b Hb. apply shortest_iff; [repeat constructor; exact Hb|exact I]. }
    constructor; [|constructor; [|constructor]].
    + exists Universal, false, 2, [0xff], [2], [1]. split; [reflexivity|]. split.
      * split; [unfold in_signed; lia|]. split; [repeat constructor|]. split; [apply Sh; lia|reflexivity].
      * split; [constructor; lia|]. split; [constructor; lia|reflexivity].
    + exists Universal, false, 2, [1], [2], [1]. split; [reflexivity|]. split.
      * split; [unfold in_signed; lia|]. split; [repeat constructor|]. split; [apply Sh; lia|reflexivity].
      * split; [constructor; lia|]. split; [constructor; lia|reflexivity].
  - split; [vm_compute; reflexivity|]. exists [2; 1], 1, 0xff, [], []. split; [reflexivity|]. split; [reflexivity|lia].
Qed.
Print Assumptions C42_signed_order_refuted.

(** The DER decoders accept elements in any order, and repeated elements; [SetOf] also writes them so. *)
Theorem C42_decoder_refuted :
  exists i1 i2, let b := TBTreeSet Z.compare (TBase (BUint 1)) in let s := TSetOf (TBase (BUint 1)) in
    i1 = [0x31; 6; 2; 1; 2; 2; 1; 1] /\ i2 = [0x31; 6; 2; 1; 1; 2; 1; 1]
    /\ lg_from_der (legacy_of b) i1 = Ok ([], [1; 2]%Z) /\ ps_parse_der (parser_of b) i1 = Ok ([], [1; 2]%Z)
    /\ lg_from_der (legacy_of b) i2 = Ok ([], [1]%Z) /\ ps_parse_der (parser_of b) i2 = Ok ([], [1]%Z)
    /\ lg_from_der (legacy_of s) i1 = Ok ([], [2; 1]%Z) /\ ps_parse_der (parser_of s) i2 = Ok ([], [1; 1]%Z)
    /\ to_vec (wr_der (writer_of s) [2; 1]%Z) = Ok i1.
Proof. do 2 eexists. cbv zeta. split; [reflexivity|]. split; [reflexivity|]. repeat split; vm_compute; reflexivity. Qed.
Print Assumptions C42_decoder_refuted.
