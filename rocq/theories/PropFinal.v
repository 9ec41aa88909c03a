(** C06: errors of all types are final unless the input ends inside a tag. *)
From Verif Require Import Base PArith MHeader MEncode SHeader PHeader PEncode MBer SBer PBer PIter PCodec.
From Verif Require Import MInt MSeg PSeg MOid MText MTime MCont PropTag PropItems PSafe.
From Verif Require Import SCont SBase PTypes MPdv MDerive SDerive PDerive PropSafe PropQuiet PropBer PropOpen PropCut.

(** More input does not change the error. *)
Definition final_at {A} (p : bytes -> res (bytes * A)) (i : bytes) : Prop :=
  forall e, p i = Err e -> forall x, bytes_ok x -> p (i ++ x) = Err e.
Lemma der_final {T} (p : codec T) i : bytes_ok i -> ~ open_tag i -> final_at (parse_der p) i.
Proof.
  intros Hi No e E x Hx. pose proof C06_open_exact as (_ & O & _). unfold parse_der in *.
  destruct (header_parse_der i) as [[r h]|e'|n|] eqn:H; cbn [bind] in E; try discriminate.
  - pose proof (streaming_header_parse_der i Hi) as S. rewrite H in S. destruct S as [(pre & ->) S]. rewrite (S x Hx). cbn [bind].
    destruct (h_length h) as [l|]; [|exact E]. destruct (accept_tag p (h_tag h)); [|exact E]. apply bytes_ok_app in Hi as [_ Hr].
    pose proof (streaming_take l r Hr) as S2. destruct (take l r) as [[r' d]|e2|n|] eqn:T2; cbn [bind] in E; try discriminate.
    + destruct S2 as [_ S2]. rewrite (S2 x Hx). cbn [bind]. destruct (der_content p h d) as [[? ?]|e3|n|]; cbn [bind] in *; congruence.
    + unfold take in T2. destruct (_ <=? _) in T2; discriminate.
  - injection E as <-. destruct (O i e' Hi H) as [F _]. rewrite (proj2 F No x Hx). reflexivity.
Qed.

Lemma header_final i e x : bytes_ok i -> ~ open_tag i -> header_parse_ber i = Err e -> bytes_ok x -> header_parse_ber (i ++ x) = Err e.
Proof. intros Hi No H Hx. destruct C06_open_exact as (O & _). destruct (O i e Hi H) as [F _]. exact (proj2 F No x Hx). Qed.

Lemma not_open i : ~ object_cut_in_tag i -> ~ open_tag i.
Proof. unfold object_cut_in_tag. tauto. Qed.
Lemma content_final i r h e x : bytes_ok i -> ~ object_cut_in_tag i -> header_parse_ber i = Ok (r, h) -> bytes_ok x ->
  ber_object_content h r MAX_RECURSION = Err e -> ber_object_content h (r ++ x) MAX_RECURSION = Err e.
Proof.
  intros Hi No H Hx E.
  destruct (proj1 (parse_header_ok i r h Hi) H) as (c & k & t & l & idb & lenb & H1 & H2 & Eo & Hh).
  assert (Hr : bytes_ok r) by (rewrite Eo, app_assoc in Hi; apply bytes_ok_app in Hi; apply Hi).
  assert (Es : skip_content MAX_RECURSION h r = Err e).
  { unfold ber_object_content in E. destruct (skip_content MAX_RECURSION h r) as [[r' b]|e'|n|]; cbn [bind] in E; try discriminate; [|congruence].
    destruct (is_definite (h_length h)); [discriminate|]. destruct (_ <? _)%nat in E; discriminate. }
  destruct (skip_cut MAX_RECURSION h r e Hr Es) as [F|(-> & L & K & C & _)].
  - unfold ber_object_content. rewrite F by exact Hx. reflexivity.
  - exfalso. apply No. right. subst h. cbn [h_length h_constructed] in L, K. subst l k. exists c, t, idb, lenb, r. split; [split; assumption|]. split; assumption.
Qed.

Lemma ber_final {T} (p : codec T) i : bytes_ok i -> ~ object_cut_in_tag i -> final_at (parse_ber p) i.
Proof.
  intros Hi No e E x Hx. unfold parse_ber in *.
  destruct (header_parse_ber i) as [[r h]|e'|n|] eqn:H; cbn [bind] in E; try discriminate.
  - pose proof (content_final i r h) as CF. pose proof (streaming_parse_header i Hi) as S. change header_parse_ber with parse_header in *. rewrite H in S.
    destruct S as [(pre & Ei) S]. rewrite (S x Hx). cbn [bind].
    destruct (accept_tag p (h_tag h)); [|exact E]. assert (Hr : bytes_ok r) by (rewrite Ei in Hi; apply bytes_ok_app in Hi; apply Hi).
    pose proof (streaming_ber_object_content MAX_RECURSION h r Hr) as S2. cbv beta in S2.
    destruct (ber_object_content h r MAX_RECURSION) as [[r' d]|e2|n|] eqn:T2; cbn [bind] in E; try discriminate.
    + destruct S2 as [_ S2]. rewrite (S2 x Hx). cbn [bind]. destruct (ber_content p h d) as [[? ?]|e3|n|]; cbn [bind] in *; congruence.
    + rewrite (CF e2 x Hi No H Hx eq_refl). exact E.
  - injection E as <-. rewrite (header_final i e' x Hi (not_open i No) H Hx). reflexivity.
Qed.

Lemma map_final {A B} (obj : bytes -> res (bytes * A)) (p : bytes -> res (bytes * B)) (f : A -> res B) i :
  (forall i, p i = let* (r, a) := obj i in let* x := f a in Ok (r, x)) -> streaming obj -> bytes_ok i -> final_at obj i -> final_at p i.
Proof.
  intros P S Hi F e E x Hx. rewrite P in *. specialize (S i Hi). destruct (obj i) as [[r a]|e'|n|] eqn:H; cbn [bind] in E; try discriminate.
  - destruct S as [_ S]. rewrite (S x Hx). cbn [bind]. destruct (f a); cbn [bind] in *; congruence.
  - injection E as <-. rewrite (F e' H x Hx). reflexivity.
Qed.

Lemma der_any_final i : bytes_ok i -> ~ open_tag i -> final_at parse_der_any i.
Proof. intros Hi No e E x Hx. destruct C06_open_exact as (_ & _ & O). destruct (O i e Hi E) as [F _]. exact (proj2 F No x Hx). Qed.
Lemma ber_any_final i : bytes_ok i -> ~ object_cut_in_tag i -> final_at parse_ber_any i.
Proof. intros Hi No e E. destruct (C06_ber_exact i e Hi E) as [F|(_ & C & _)]; [exact F|contradiction]. Qed.

Lemma dparser_is_codec {A} (t : dty A) : exists p, dparser_of t = codec_parser p.
Proof. destruct t as [A t|A t|A s fs|A k vs|ds|A t]; [exact (parser_is_codec t)|eexists; reflexivity..]. Qed.

Lemma from_der_shape {A} (t : dty A) :
  (exists f, forall i, lg_from_der (dlegacy_of t) i = let* (r, a) := parse_der_any i in let* x := f a in Ok (r, x))
  \/ exists e, forall i, lg_from_der (dlegacy_of t) i = Err e.
Proof.
  destruct t as [A t|A t|A s fs|A k vs|ds|A t]; try (right; eexists; reflexivity).
  - change (dlegacy_of (DTy t)) with (legacy_of t).
    destruct t as [A b|A t|A n t|A t|A cmp t|A c n t|A c n t]; try (right; eexists; reflexivity); left.
    + exists (fun a => let* _ := check_constraints (base_codec b) a in try_from_any (base_codec b) a).
      intros i. cbn [legacy_of codec_legacy lg_from_der]. unfold from_der. destruct (parse_der_any i) as [[r a]|e|m|]; cbn [bind]; try reflexivity.
      destruct (check_constraints (base_codec b) a); reflexivity.
    + exists (fun a => let* _ := assert_tag (any_header a) TagSequence in seq_items (lg_from_der (legacy_of t)) (any_data a)).
      intros i. cbn [legacy_of vec_legacy lg_from_der]. unfold vec_from_der. destruct (parse_der_any i) as [[r a]|e|m|]; cbn [bind]; try reflexivity.
      destruct (assert_tag (any_header a) TagSequence) as [[]|e|m|]; reflexivity.
    + exists (fun a => let* _ := assert_tag (any_header a) TagSet in seq_items (lg_from_der (legacy_of t)) (any_data a)).
      intros i. cbn [legacy_of setof_legacy lg_from_der]. unfold setof_from_der. rewrite from_der_any_eq.
      destruct (parse_der_any i) as [[r a]|e|m|]; cbn [bind]; try reflexivity.
      destruct (assert_tag (any_header a) TagSet) as [[]|e|m|]; reflexivity.
    + exists (fun a => let* _ := assert_tag (any_header a) TagSet in let* _ := assert_constructed (any_header a) in
          let* v := seq_items (lg_from_der (legacy_of t)) (any_data a) in Ok (set_of_list cmp v)).
      intros i. cbn [legacy_of btreeset_legacy lg_from_der]. unfold btreeset_from_der. rewrite from_der_any_eq.
      destruct (parse_der_any i) as [[r a]|e|m|]; cbn [bind]; try reflexivity.
      destruct (assert_tag (any_header a) TagSet) as [[]|e|m|]; cbn [bind]; try reflexivity.
      destruct (assert_constructed (any_header a)) as [[]|e|m|]; cbn [bind]; try reflexivity.
      destruct (seq_items _ (any_data a)); reflexivity.
    + exists (fun a => let* _ := assert_tag (any_header a) n in let* _ := assert_constructed (any_header a) in
        let* _ := check_class (any_header a) c in let* (_, x) := lg_from_der (legacy_of t) (any_data a) in Ok x).
      intros i. cbn [legacy_of explicit_legacy lg_from_der]. unfold explicit_from_der. rewrite from_der_any_eq.
      destruct (parse_der_any i) as [[r a]|e|m|]; cbn [bind]; try reflexivity.
      destruct (assert_tag (any_header a) n) as [[]|e|m|]; cbn [bind]; try reflexivity.
      destruct (assert_constructed (any_header a)) as [[]|e|m|]; cbn [bind]; try reflexivity.
      destruct (check_class (any_header a) c) as [[]|e|m|]; cbn [bind]; try reflexivity.
      destruct (lg_from_der (legacy_of t) (any_data a)) as [[? ?]|e|m|]; reflexivity.
    + exists (implicit_try_from c n (legacy_of t)).
      intros i. cbn [legacy_of implicit_legacy lg_from_der]. unfold implicit_from_der. rewrite from_der_any_eq. reflexivity.
  - left. exists (fun a => let* _ := assert_tag (any_header a) TagSequence in seq_items (lg_from_der (dlegacy_of t)) (any_data a)).
    intros i. change (lg_from_der (dlegacy_of (DVec t)) i) with (vec_from_der (dlegacy_of t) i). unfold vec_from_der.
    destruct (parse_der_any i) as [[r a]|e|m|]; cbn [bind]; try reflexivity.
    destruct (assert_tag (any_header a) TagSequence) as [[]|e|m|]; reflexivity.
  - left. exists (fun a => let* _ := assert_tag (any_header a) (struct_tag s) in let* (_, v) := lder_of fs (any_data a) in Ok v).
    intros i. change (lg_from_der (dlegacy_of (DStruct s fs)) i) with (struct_from_der (struct_tag s) (lder_of fs) i). unfold struct_from_der.
    rewrite from_der_any_eq. destruct (parse_der_any i) as [[r a]|e|m|]; cbn [bind]; try reflexivity.
    destruct (assert_tag (any_header a) (struct_tag s)) as [[]|e|m|]; cbn [bind]; try reflexivity.
    destruct (lder_of fs (any_data a)) as [[? ?]|e|m|]; reflexivity.
  - left. exists (fun a => let* _ := assert_tag (any_header a) (lg_tag (dlegacy_of t)) in lg_try_from (dlegacy_of t) a).
    intros i. change (lg_from_der (dlegacy_of (DAlias t)) i) with (alias_from_der (dlegacy_of t) i). unfold alias_from_der.
    rewrite from_der_any_eq. destruct (parse_der_any i) as [[r a]|e|m|]; cbn [bind]; try reflexivity.
    destruct (assert_tag (any_header a) (lg_tag (dlegacy_of t))) as [[]|e|m|]; reflexivity.
Qed.

Lemma from_ber_shape {A} (t : dty A) :
  (forall i, lg_from_ber (dlegacy_of t) i = let* (r, a) := parse_ber_any i in let* x := lg_try_from (dlegacy_of t) a in Ok (r, x))
  \/ forall i, lg_from_ber (dlegacy_of t) i = Err EUnsupported.
Proof.
  destruct t as [A t|A t|A s fs|A k vs|ds|A t]; try (left; reflexivity); try (right; reflexivity).
  change (lg_from_ber (dlegacy_of (DTy t))) with (lg_from_ber (legacy_of t)).
  change (lg_try_from (dlegacy_of (DTy t))) with (lg_try_from (legacy_of t)).
  destruct t; try (left; reflexivity); right; reflexivity.
Qed.

(** The errors of every type are final, [InvalidTag] among them, unless the input ends inside the first tag or, in BER, inside the tag of an element of an object of indefinite length. *)
Theorem C06_types_final {A} (t : dty A) i : bytes_ok i ->
  (~ open_tag i -> final_at (ps_parse_der (dparser_of t)) i /\ final_at (lg_from_der (dlegacy_of t)) i)
  /\ (~ object_cut_in_tag i -> final_at (ps_parse_ber (dparser_of t)) i /\ final_at (lg_from_ber (dlegacy_of t)) i).
Proof.
  intros Hi. destruct (dparser_is_codec t) as [p E]. rewrite E. split; intros No; (split; [first [exact (der_final p i Hi No)|exact (ber_final p i Hi No)]|]).
  - destruct (from_der_shape t) as [[f F]|[e F]].
    + apply (map_final parse_der_any _ f i F streaming_parse_der_any Hi). apply der_any_final; assumption.
    + intros e' E' x Hx. rewrite F in *. exact E'.
  - destruct (from_ber_shape t) as [F|F].
    + apply (map_final parse_ber_any _ (lg_try_from (dlegacy_of t)) i F streaming_parse_ber_any Hi). apply ber_any_final; assumption.
    + intros e' E' x Hx. rewrite F in *. exact E'.
Qed.
Print Assumptions C06_types_final.

(** A tag of six octets or more is refused at once; 7f 81 is not covered, and more input changes the error. *)
Example C06_types_final_case :
  let t := DTy (TVec (TBase (BUint 4))) in let i := [0x7f; 0x81; 0x82; 0x83; 0x84; 0x85] in
  ps_parse_der (dparser_of t) i = Err EInvalidTag /\ ~ open_tag i /\ ~ object_cut_in_tag i /\ ps_parse_ber (dparser_of t) i = Err EInvalidTag
  /\ ps_parse_der (dparser_of t) [0x30; 3; 0x02; 1] = Incomplete 1
  /\ open_tag [0x7f; 0x81] /\ ps_parse_der (dparser_of t) [0x7f; 0x81] = Err EInvalidTag /\ ps_parse_der (dparser_of t) [0x7f; 0x81; 0; 0] = Err EUnexpectedTag.
Proof.
  cbv zeta. assert (No : ~ open_tag [0x7f; 0x81; 0x82; 0x83; 0x84; 0x85]).
  { intros (b & cs & E & _ & _ & L). injection E as <- <-. vm_compute in L. apply L. reflexivity. }
  split; [vm_compute; reflexivity|]. split; [exact No|]. split.
  { intros [O|(c & t & idb & lenb & r & [H1 H2] & E & _)]; [contradiction|].
    assert (B : bytes_ok [0x7f; 0x81; 0x82; 0x83; 0x84; 0x85]) by (repeat constructor).
    assert (P : exists h, parse_header [0x7f; 0x81; 0x82; 0x83; 0x84; 0x85] = Ok (r, h)).
    { eexists. apply (parse_header_ok _ r _ B). exists c, true, t, Indefinite, idb, lenb. split; [exact H1|]. split; [exact H2|]. split; [exact E|reflexivity]. }
    destruct P as [h P]. vm_compute in P. discriminate. }
  split; [vm_compute; reflexivity|]. split; [vm_compute; reflexivity|].
  split; [exists 0x7f, [0x81]; repeat split; try reflexivity; [repeat constructor; lia|vm_compute; discriminate]|]. vm_compute. split; reflexivity.
Qed.
