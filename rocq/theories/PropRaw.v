(** Properties of typed iteration, of raw SEQUENCE and SET values, of untyped sequences and of optional helpers. *)
From Verif Require Import Base MHeader MEncode SHeader PArith PHeader PEncode MBer SBer PBer PIter PCodec.
From Verif Require Import MInt SInt PInt MSeg SSeg MOid MText SText PropText.
From Verif Require Import MCont SCont PCont SBase PBase PTypes PropCont PropTag PropItems.

(** ** C57: typed iterators *)

(** [reads_some p i vs rem]: reading [i] with [p] again and again gives [vs] and leaves [rem]. *)
Inductive reads_some {T} (p : bytes -> res (bytes * T)) : bytes -> list T -> bytes -> Prop :=
| rs_nil i : reads_some p i [] i
| rs_cons i rem v vs r : i <> [] -> p i = Ok (rem, v) -> reads_some p rem vs r -> reads_some p i (v :: vs) r.

(** What the iterator hands out for a reader that fails. *)
Definition reported {T} (r : res (bytes * T)) (e : res T) : Prop :=
  match r with Ok _ => False | Err x => e = Err x | Incomplete k => e = Err (EIncomplete k) | Panic => e = Panic end.

Lemma calls_over {T} (p : bytes -> res (bytes * T)) n s :
  si_has_error s || (blen (si_data s) =? 0) = true -> fst (seq_iter_calls p n s) = repeat None n.
Proof.
  intros H. induction n as [|n IH]; [reflexivity|]. cbn [seq_iter_calls repeat]. unfold seq_iter_next. rewrite H.
  destruct (seq_iter_calls p n s) as [xs s2]. cbn [fst] in *. rewrite IH. reflexivity.
Qed.

Lemma calls_cons {T} (p : bytes -> res (bytes * T)) n s :
  fst (seq_iter_calls p (S n) s) = fst (seq_iter_next p s) :: fst (seq_iter_calls p n (snd (seq_iter_next p s))).
Proof. cbn [seq_iter_calls]. destruct (seq_iter_next p s) as [x s1]. cbn [fst snd]. destruct (seq_iter_calls p n s1). reflexivity. Qed.

(** [SequenceIterator] (and [SetIterator]): the values of successive objects; then either everything has been read,
    or one error; and nothing more, however often [next] is called. *)
Theorem C57_iterate {T} (p : bytes -> res (bytes * T)) (i : bytes) (n : nat) :
  consuming p -> bytes_ok i -> (length i < n)%nat ->
  exists vs rem last,
    reads_some p i vs rem
    /\ fst (seq_iter_calls p n (mk_seq_iter i false))
       = map (fun v => Some (Ok v)) vs ++ last ++ repeat None (n - length vs - length last)
    /\ (rem = [] /\ last = [] \/ rem <> [] /\ exists e, last = [Some e] /\ reported (p rem) e).
Proof.
  intros C. revert i. induction n as [|n IH]; intros i Hi Hn; [lia|].
  destruct i as [|b i'].
  { exists [], [], []. split; [constructor|]. split; [|left; auto]. rewrite calls_over by reflexivity. reflexivity. }
  set (i := b :: i') in *. assert (Hne : i <> []) by discriminate.
  assert (Hz : blen i =? 0 = false) by reflexivity.
  rewrite calls_cons. unfold seq_iter_next. cbn [si_has_error si_data orb]. rewrite Hz.
  assert (Fail : forall e, (p i = Panic \/ (exists x, p i = Err x) \/ exists k, p i = Incomplete k) -> reported (p i) e ->
    exists vs rem last, reads_some p i vs rem
      /\ Some e :: fst (seq_iter_calls p n (mk_seq_iter i true)) = map (fun v => Some (Ok v)) vs ++ last ++ repeat None (S n - length vs - length last)
      /\ (rem = [] /\ last = [] \/ rem <> [] /\ exists e, last = [Some e] /\ reported (p rem) e)).
  { intros e _ R. exists [], i, [Some e]. split; [constructor|]. split; [|right; eauto].
    rewrite calls_over by reflexivity. cbn [map app length]. do 2 f_equal. lia. }
  destruct (p i) as [[rem v]|e|k|] eqn:E; cbn [fst snd].
  - destruct (C i rem v Hi E) as [Hl Hr].
    destruct (IH rem Hr ltac:(lia)) as (vs & r & last & R & F & D).
    exists (v :: vs), r, last. split; [econstructor; eassumption|]. split; [|exact D]. rewrite F. reflexivity.
  - apply Fail; eauto. reflexivity.
  - apply Fail; eauto. reflexivity.
  - apply Fail; eauto. reflexivity.
Qed.
Print Assumptions C57_iterate.

(** Fewer calls give the beginning of the same list. *)
Theorem C57_prefix {T} (p : bytes -> res (bytes * T)) (n m : nat) (s : seq_iter) :
  length (fst (seq_iter_calls p n s)) = n
  /\ firstn n (fst (seq_iter_calls p (n + m) s)) = fst (seq_iter_calls p n s).
Proof.
  revert s. induction n as [|n IH]; intros s; [split; reflexivity|].
  change (S n + m)%nat with (S (n + m)). rewrite !calls_cons. cbn [length firstn].
  destruct (IH (snd (seq_iter_next p s))) as [L F]. rewrite L, F. auto.
Qed.
Print Assumptions C57_prefix.

(** [SequenceIteratorInput] returns what the element type reads, when it reads all the elements. *)
Theorem C57_input {T} (P : parser T) (i : bytes) (vs : list T) :
  regular P -> bytes_ok i ->
  (reads_all (ps_parse_ber P) i vs -> input_items any_parse_ber (ps_ber_content P) i = Ok vs)
  /\ (reads_all (ps_parse_der P) i vs -> input_items any_parse_der (ps_der_content P) i = Ok vs).
Proof.
  intros [R1 R2] Hi. unfold input_items. split; intros R.
  - set (f := fun a : any => _).
    assert (E : collect_loop any_parse_ber f (S (length i)) i = Ok ([], vs)).
    { apply (collect_reads any_parse_ber f (fun i => let* (rem, a) := any_parse_ber i in let* x := f a in Ok (rem, x)));
        [apply object_parser_ber| |exact Hi|].
      - intros j rem v Hj. rewrite bind_ok. split.
        + intros ([r a] & E & F). apply bind_ok in F as (x & F & G). injection G as -> ->. eauto.
        + intros (a & E & F). exists (rem, a). rewrite F. auto.
      - split; [reflexivity|]. revert Hi. induction R as [|j rem v vs Hne E R IH]; intros Hi; [constructor|].
        rewrite R1 in E. apply (proj1 (default_parse_ber_ok (ps_accept P) (ps_ber_content P) (ps_der_content P) j rem v)) in E as (a & r & E & _ & C).
        apply (ra_cons _ _ rem); [exact Hne| |apply IH; apply (any_ber_consuming _ _ _ Hi E)].
        rewrite any_parse_ber_eq, E by exact Hi. cbn [bind]. unfold f. rewrite C. reflexivity. }
    rewrite E. reflexivity.
  - set (f := fun a : any => _).
    assert (E : collect_loop any_parse_der f (S (length i)) i = Ok ([], vs)).
    { apply (collect_reads any_parse_der f (fun i => let* (rem, a) := any_parse_der i in let* x := f a in Ok (rem, x)));
        [apply object_parser_der| |exact Hi|].
      - intros j rem v Hj. rewrite bind_ok. split.
        + intros ([r a] & E & F). apply bind_ok in F as (x & F & G). injection G as -> ->. eauto.
        + intros (a & E & F). exists (rem, a). rewrite F. auto.
      - split; [reflexivity|]. revert Hi. induction R as [|j rem v vs Hne E R IH]; intros Hi; [constructor|].
        rewrite R2 in E. apply (proj1 (default_parse_der_ok (ps_accept P) (ps_ber_content P) (ps_der_content P) j rem v Hi)) in E as (a & r & E & _ & C).
        apply (ra_cons _ _ rem); [exact Hne| |apply IH; apply (any_der_consuming _ _ _ Hi E)].
        rewrite any_parse_der_eq, E by exact Hi. cbn [bind]. unfold f. rewrite C. reflexivity. }
    rewrite E. reflexivity.
Qed.
Print Assumptions C57_input.

Example C57_case :
  let p := lg_from_ber (legacy_of (TBase (BUint 1))) in
  let P := parser_of (TBase (BUint 1)) in
  fst (seq_iter_calls p 5 (mk_seq_iter [2; 1; 5; 2; 1; 6; 4; 0; 2; 1; 7] false))
    = [Some (Ok 5%Z); Some (Ok 6%Z); Some (Err EUnexpectedTag); None; None]
  /\ fst (seq_iter_calls p 3 (mk_seq_iter [2; 1; 5] false)) = [Some (Ok 5%Z); None; None]
  /\ fst (seq_iter_calls p 3 (mk_seq_iter [2; 1] false)) = [Some (Err (EIncomplete 1)); None; None]
  /\ input_items any_parse_ber (ps_ber_content P) [2; 1; 5; 2; 1; 6] = Ok [5; 6]%Z.
Proof. vm_compute. repeat split. Qed.

(** It does not look at the tags: octet strings are read as integers.  [SequenceIterator] rejects them. *)
Theorem C57_input_refuted :
  let P := parser_of (TBase (BUint 1)) in let L := legacy_of (TBase (BUint 1)) in
  input_items any_parse_ber (ps_ber_content P) [2; 1; 5; 4; 1; 6] = Ok [5; 6]%Z
  /\ input_items any_parse_der (ps_der_content P) [2; 1; 5; 4; 1; 6] = Ok [5; 6]%Z
  /\ seq_items (lg_from_ber L) [2; 1; 5; 4; 1; 6] = Err EUnexpectedTag.
Proof. vm_compute. repeat split. Qed.
Print Assumptions C57_input_refuted.

(** ** C58: raw SEQUENCE and SET *)

(** [Sequence] (tag 16) and [Set] (tag 17): a constructed object with that number, of any class. *)
Theorem C58_accept (tag : N) (i rem d : bytes) :
  bytes_ok i ->
  let p := raw_codec tag in
  let ber := exists c, starts_with_ber_object c true tag d i rem in
  let der := exists c, starts_with_object c true tag d i rem in
  (parse_ber p i = Ok (rem, d) <-> ber) /\ (parse_der p i = Ok (rem, d) <-> der)
  /\ (from_ber p i = Ok (rem, d) <-> ber) /\ (from_der p i = Ok (rem, d) <-> der).
Proof.
  intros Hi p ber der.
  assert (C : forall h x, bytes_ok x -> ((exists r, raw_content h x = Ok (r, d)) <-> h_constructed h = true /\ x = d)).
  { intros h x _. unfold raw_content. rewrite <- assert_constructed_ok. destruct (assert_constructed h) as [[]| | |]; cbn [bind].
    - rewrite take_all. split; [intros (r & E); injection E as _ <-; auto|intros [_ <-]; eauto].
    - split; [intros (r & E); discriminate|intros [E _]; discriminate].
    - split; [intros (r & E); discriminate|intros [E _]; discriminate].
    - split; [intros (r & E); discriminate|intros [E _]; discriminate]. }
  assert (F : forall a, raw_try_from tag a = Ok d <-> h_tag (any_header a) = tag /\ h_constructed (any_header a) = true /\ any_data a = d).
  { intros a. unfold raw_try_from. rewrite bind_ok. split.
    - intros ([] & T & E). apply bind_ok in E as ([] & K & E). apply assert_tag_ok in T. apply assert_constructed_ok in K.
      injection E as E. auto.
    - intros (T & K & <-). exists tt. apply assert_tag_ok in T. apply assert_constructed_ok in K. rewrite K. auto. }
  split; [|split; [|split]].
  - change (parse_ber p) with (ps_parse_ber (default_parser (is_tag tag) raw_content raw_content)).
    rewrite (object_parse_ber tag raw_content raw_content (fun x v => x = v) i rem d Hi C). unfold ber.
    split; [intros (c & x & O & <-); eauto|intros (c & O); eauto].
  - change (parse_der p) with (ps_parse_der (default_parser (is_tag tag) raw_content raw_content)).
    rewrite (object_parse_der tag raw_content raw_content (fun x v => x = v) i rem d Hi C). unfold der.
    split; [intros (c & x & O & <-); eauto|intros (c & O); eauto].
  - unfold from_ber, ber. rewrite bind_ok. split.
    + intros ([r a] & E & G). apply bind_ok in G as (x & G & G'). injection G' as -> ->. apply F in G as (T & K & D).
      destruct (any_ber_object _ _ _ Hi E) as (O & _). rewrite T, K, D in O. eauto.
    + intros (c & O). destruct (ber_object_any _ _ _ _ _ _ Hi O) as (h & E & _ & K & T). exists (rem, mk_any h d). split; [exact E|].
      change (try_from_any p) with (raw_try_from tag). rewrite (proj2 (F (mk_any h d))) by auto. reflexivity.
  - unfold from_der, der. rewrite bind_ok. split.
    + intros ([r a] & E & G). apply bind_ok in G as ([] & _ & G). apply bind_ok in G as (x & G & G'). injection G' as -> ->.
      apply F in G as (T & K & D). destruct (any_der_object _ _ _ Hi E) as (O & _). rewrite T, K, D in O. eauto.
    + intros (c & O). destruct (der_object_any _ _ _ _ _ _ Hi O) as (h & E & _ & K & T). exists (rem, mk_any h d). split; [exact E|].
      cbn [p raw_codec check_constraints try_from_any bind]. rewrite (proj2 (F (mk_any h d))) by auto. reflexivity.
Qed.
Print Assumptions C58_accept.

Lemma concat_items {A} (t : ty A) vs d :
  wf t -> items_content (syntax_of t) vs d -> blen d < 2 ^ 24 -> from_iter_to_der (writer_of t) vs = Ok d.
Proof.
  intros Hwf I. unfold from_iter_to_der. destruct (types_sound t Hwf) as (S & _ & W & _).
  induction I as [|v vs enc bs E I IH]; intros Hn; [reflexivity|]. rewrite blen_app in Hn. cbn [map concat_vecs].
  destruct (writer_encodes _ _ v enc W S E ltac:(lia)) as [_ [W2 _]]. unfold to_vec at 1. rewrite W2. cbn [bind].
  rewrite IH by lia. reflexivity.
Qed.

(** [Sequence::from_iter_to_der], [Set::from_iter_to_der]: the content is the concatenation of the encodings, so
    what is written is read as a SEQUENCE OF or SET OF with these elements. *)
Theorem C58_from_iter {A} (t : ty A) (vs : list A) (n : N) :
  wf t -> Forall (sx_valid (syntax_of t)) vs -> total_len (wr_der (writer_of (TVec t)) vs) = Definite n -> n < 2 ^ 24 ->
  exists d es el, from_iter_to_der (writer_of t) vs = Ok d /\ items_content (syntax_of t) vs d
    /\ to_vec (raw_tober 16 d) = Ok es /\ to_vec (raw_tober 17 d) = Ok el
    /\ reads_everywhere (TBase BSequence) es d /\ reads_everywhere (TBase BSet) el d
    /\ reads_everywhere (TVec t) es vs /\ reads_everywhere (TSetOf t) el vs.
Proof.
  intros Hwf Hv L Hn. destruct (C26_container_roundtrip (TVec t) vs n Hwf Hv L Hn) as (es & E & Ln & _ & _ & Rv).
  pose proof (types_sound t Hwf) as (S & _).
  pose proof (list_syntax_ok 16 (syntax_of t) ltac:(lia) S) as S16. pose proof (list_syntax_ok 17 (syntax_of t) ltac:(lia) S) as S17.
  destruct (encodes_object _ vs es S16 E) as (c & k & tg & d & Ei & I & Ht & Hd & O); [lia|].
  cbn [list_syntax sx_ident] in Ei. injection Ei as <- <- <-. cbn [list_syntax sx_content] in I.
  pose proof (object_size _ _ _ _ _ O) as Hs.
  destruct (object_exists Universal true 17 d ltac:(lia) ltac:(lia)) as (el & O').
  assert (Hel : blen el = blen es).
  { destruct O as (idb & lenb & _ & S1 & S2 & ->), O' as (idb' & lenb' & _ & S1' & S2' & ->).
    rewrite !blen_app, (length_shortest_unique _ _ _ S2 S2').
    rewrite (ident_shortest_unique _ _ _ _ _ S1 (ids_low Universal true 16 ltac:(lia))).
    rewrite (ident_shortest_unique _ _ _ _ _ S1' (ids_low Universal true 17 ltac:(lia))). reflexivity. }
  assert (W : forall tag e, object Universal true tag d e -> tag < 2 ^ 32 -> blen e < 2 ^ 24 -> to_vec (raw_tober tag d) = Ok e).
  { intros tag e Oe Htag He. pose proof (object_size _ _ _ _ _ Oe). unfold to_vec.
    rewrite (writes_object (raw_tober tag d) Universal true tag d e); [reflexivity| |exact Oe|exact Htag|lia]. repeat split. }
  exists d, es, el. split; [apply concat_items; [exact Hwf|exact I|lia]|]. split; [exact I|].
  split; [apply W; [exact O|lia|lia]|]. split; [apply W; [exact O'|lia|lia]|].
  assert (Raw : forall tag e, object Universal true tag d e -> encodes (raw_syntax tag) d e).
  { intros tag e Oe. eapply encodes_intro; [reflexivity| |exact Oe]. split; [exact Hd|reflexivity]. }
  split; [apply (C26_encoding_roundtrip (TBase BSequence) d es Logic.I (Raw 16 es O)); lia|].
  split; [apply (C26_encoding_roundtrip (TBase BSet) d el Logic.I (Raw 17 el O')); lia|].
  split; [exact Rv|].
  apply (C26_encoding_roundtrip (TSetOf t) vs el Hwf); [|lia].
  eapply encodes_intro; [reflexivity|exact I|exact O'].
Qed.
Print Assumptions C58_from_iter.

(** [from_ber_and_then], [from_der_and_then], [parse_ber_and_then], [parse_der_and_then] apply the function to the
    content and leave what follows the object.  The latter two do not look at the form. *)
Theorem C58_and_then_partial {T} (tag : N) (op : bytes -> res (bytes * T)) (i rem : bytes) (x : T) :
  bytes_ok i ->
  let applied d := exists r, op d = Ok (r, x) in
  (from_and_then (from_ber (raw_codec tag)) op i = Ok (rem, x)
   <-> exists c d, starts_with_ber_object c true tag d i rem /\ applied d)
  /\ (from_and_then (from_der (raw_codec tag)) op i = Ok (rem, x)
      <-> exists c d, starts_with_object c true tag d i rem /\ applied d)
  /\ (parse_and_then any_parse_ber tag (fun _ => op) i = Ok (rem, x)
      <-> exists c k d, starts_with_ber_object c k tag d i rem /\ applied d)
  /\ (parse_and_then any_parse_der tag (fun _ => op) i = Ok (rem, x)
      <-> exists c k d, starts_with_object c k tag d i rem /\ applied d).
Proof.
  intros Hi applied. unfold from_and_then, parse_and_then, applied. split; [|split; [|split]].
  - rewrite bind_ok. split.
    + intros ([r d] & E & F). apply bind_ok in F as ([r' y] & F & G). injection G as -> ->.
      apply C58_accept in E as (c & O); [|exact Hi]. eauto 6.
    + intros (c & d & O & r & F). exists (rem, d). split; [apply C58_accept; eauto|]. rewrite F. reflexivity.
  - rewrite bind_ok. split.
    + intros ([r d] & E & F). apply bind_ok in F as ([r' y] & F & G). injection G as -> ->.
      apply C58_accept in E as (c & O); [|exact Hi]. eauto 6.
    + intros (c & d & O & r & F). exists (rem, d). split; [apply C58_accept; eauto|]. rewrite F. reflexivity.
  - rewrite any_parse_ber_eq by exact Hi. rewrite bind_ok. split.
    + intros ([r a] & E & F). destruct (is_tag tag (h_tag (any_header a))) eqn:T'; [|discriminate]. apply is_tag_iff in T'.
      apply bind_ok in F as ([r' y] & F & G). injection G as -> ->. destruct (any_ber_object _ _ _ Hi E) as (O & _).
      rewrite T' in O. eauto 6.
    + intros (c & k & d & O & r & F). destruct (ber_object_any _ _ _ _ _ _ Hi O) as (h & E & _ & _ & T').
      exists (rem, mk_any h d). split; [exact E|]. cbn [any_header any_data]. rewrite (proj2 (is_tag_iff tag (h_tag h)) T'), F. reflexivity.
  - rewrite any_parse_der_eq by exact Hi. rewrite bind_ok. split.
    + intros ([r a] & E & F). destruct (is_tag tag (h_tag (any_header a))) eqn:T'; [|discriminate]. apply is_tag_iff in T'.
      apply bind_ok in F as ([r' y] & F & G). injection G as -> ->. destruct (any_der_object _ _ _ Hi E) as (O & _).
      rewrite T' in O. eauto 6.
    + intros (c & k & d & O & r & F). destruct (der_object_any _ _ _ _ _ _ Hi O) as (h & E & _ & _ & T').
      exists (rem, mk_any h d). split; [exact E|]. cbn [any_header any_data]. rewrite (proj2 (is_tag_iff tag (h_tag h)) T'), F. reflexivity.
Qed.
Print Assumptions C58_and_then_partial.

(** [Any::from_ber_and_then], [from_der_and_then]: exactly the class and the number asked for. *)
Theorem C58_any_and_then {T} (c : class) (t : N) (op : bytes -> res (bytes * T)) (i rem : bytes) (x : T) :
  bytes_ok i ->
  let applied d := exists r, op d = Ok (r, x) in
  (any_and_then parse_ber_any c t op i = Ok (rem, x) <-> exists k d, starts_with_ber_object c k t d i rem /\ applied d)
  /\ (any_and_then parse_der_any c t op i = Ok (rem, x) <-> exists k d, starts_with_object c k t d i rem /\ applied d).
Proof.
  intros Hi applied. unfold any_and_then, applied. split; rewrite bind_ok; split.
  - intros ([r a] & E & F). apply bind_ok in F as ([] & T' & F). apply bind_ok in F as ([] & C' & F).
    apply bind_ok in F as ([r' y] & F & G). injection G as -> ->. apply assert_tag_ok in T'. apply assert_class_ok in C'.
    destruct (any_ber_object _ _ _ Hi E) as (O & _). rewrite T', C' in O. eauto 6.
  - intros (k & d & O & r & F). destruct (ber_object_any _ _ _ _ _ _ Hi O) as (h & E & C' & _ & T').
    apply assert_tag_ok in T'. apply assert_class_ok in C'. exists (rem, mk_any h d). split; [exact E|]. cbn [any_header any_data].
    rewrite T'. cbn [bind]. rewrite C'. cbn [bind]. rewrite F. reflexivity.
  - intros ([r a] & E & F). apply bind_ok in F as ([] & T' & F). apply bind_ok in F as ([] & C' & F).
    apply bind_ok in F as ([r' y] & F & G). injection G as -> ->. apply assert_tag_ok in T'. apply assert_class_ok in C'.
    destruct (any_der_object _ _ _ Hi E) as (O & _). rewrite T', C' in O. eauto 6.
  - intros (k & d & O & r & F). destruct (der_object_any _ _ _ _ _ _ Hi O) as (h & E & C' & _ & T').
    apply assert_tag_ok in T'. apply assert_class_ok in C'. exists (rem, mk_any h d). split; [exact E|]. cbn [any_header any_data].
    rewrite T'. cbn [bind]. rewrite C'. cbn [bind]. rewrite F. reflexivity.
Qed.
Print Assumptions C58_any_and_then.

Example C58_case :
  let u8 := TBase (BUint 1) in
  from_iter_to_der (writer_of u8) [5; 200]%Z = Ok [2; 1; 5; 2; 2; 0; 200]
  /\ to_vec (raw_tober 16 [2; 1; 5; 2; 2; 0; 200]) = Ok [0x30; 7; 2; 1; 5; 2; 2; 0; 200]
  /\ from_der (raw_codec 16) [0x30; 3; 2; 1; 5; 9] = Ok ([9], [2; 1; 5])
  /\ parse_ber (raw_codec 17) [0x31; 0x80; 2; 1; 5; 0; 0; 9] = Ok ([9], [2; 1; 5])
  /\ from_and_then (from_der (raw_codec 16)) (lg_from_der (legacy_of u8)) [0x30; 3; 2; 1; 5; 9] = Ok ([9], 5%Z)
  /\ any_and_then parse_ber_any ContextSpecific 1 (lg_from_ber (legacy_of u8)) [0xa1; 3; 2; 1; 5; 9] = Ok ([9], 5%Z).
Proof. vm_compute. repeat split. Qed.

(** X.690 8.9.1: the encoding of a sequence is constructed.  [parse_der_and_then] takes the primitive form; and no
    entry point looks at the class, so that [0x70] (application class) is a [Sequence]. *)
Theorem C58_form_class_refuted :
  let u8 := parser_of (TBase (BUint 1)) in
  parse_and_then any_parse_der 16 (fun _ => ps_parse_der u8) [0x10; 3; 2; 1; 5] = Ok ([], 5%Z)
  /\ from_der (raw_codec 16) [0x10; 3; 2; 1; 5] = Err EConstructExpected
  /\ from_der (raw_codec 16) [0x70; 3; 2; 1; 5] = Ok ([], [2; 1; 5]).
Proof. vm_compute. repeat split. Qed.
Print Assumptions C58_form_class_refuted.

(** ** C59: untyped sequences and sets *)

(** [AnySequence] (tag 16) and [AnySet] (tag 17). *)
Theorem C59_accept (tag : N) (i rem : bytes) (vs : list any) :
  bytes_ok i ->
  (ps_parse_ber (any_items_parser tag) i = Ok (rem, vs)
   <-> exists c d, starts_with_ber_object c true tag d i rem /\ reads_all any_parse_ber d vs)
  /\ (ps_parse_der (any_items_parser tag) i = Ok (rem, vs)
      <-> exists c d, starts_with_object c true tag d i rem /\ reads_all any_parse_der d vs).
Proof.
  intros Hi.
  assert (G : forall p, object_parser p -> forall h d, bytes_ok d ->
    ((exists r, any_items_content p h d = Ok (r, vs)) <-> h_constructed h = true /\ reads_all p d vs)).
  { intros p Hp h d Hd. unfold any_items_content. rewrite <- assert_constructed_ok.
    assert (C : forall r, try_collect p d = Ok (r, vs) <-> r = [] /\ reads_all p d vs).
    { intros r. apply collect_reads; [exact Hp| |exact Hd]. intros j rm v _. split.
      - intros E. exists v. auto.
      - intros (a & E & F). injection F as <-. exact E. }
    destruct (assert_constructed h) as [[]| | |]; cbn [bind]; try (split; [intros (r & E); discriminate|intros [E _]; discriminate]).
    split; [intros (r & E); apply C in E; tauto|intros [_ R]; exists []; apply C; auto]. }
  split.
  - apply (object_parse_ber tag _ _ (fun d v => reads_all any_parse_ber d v) i rem vs Hi). apply G. apply object_parser_ber.
  - apply (object_parse_der tag _ _ (fun d v => reads_all any_parse_der d v) i rem vs Hi). apply G. apply object_parser_der.
Qed.
Print Assumptions C59_accept.

(** An untyped value as a type of its own: its identifier is what it says. *)
Definition any_syntax : syntax any :=
  mk_syntax (fun a => h_tag (any_header a) < 2 ^ 32 /\ bytes_ok (any_data a))
            (fun a => (h_class (any_header a), h_constructed (any_header a), h_tag (any_header a)))
            (fun a cb => cb = any_data a /\ h_tag (any_header a) < 2 ^ 32 /\ bytes_ok (any_data a)).
(** The same object: class, form, number and contents.  (The length and the raw octets of the header are ignored.) *)
Definition same_object (a b : any) : Prop :=
  h_class (any_header a) = h_class (any_header b) /\ h_constructed (any_header a) = h_constructed (any_header b)
  /\ h_tag (any_header a) = h_tag (any_header b) /\ any_data a = any_data b.

Lemma any_syntax_ok : syntax_ok any_syntax.
Proof. intros a cb c k t E (-> & Ht & Hd). cbn [any_syntax sx_ident] in E. injection E as <- <- <-. auto. Qed.

Lemma any_writer_sound : writer_sound (mk_writer (fun a => h_class (any_header a)) (fun a => h_constructed (any_header a)) (fun a => h_tag (any_header a)) tober_any tober_any) any_syntax.
Proof.
  split.
  - intros v cb c k t E (-> & Ht & Hd) Hn. cbn [any_syntax sx_ident] in E. injection E as <- <- <-. cbn [wr_ber wr_der wr_tag].
    repeat split.
  - intros v n [Ht Hd] E _. cbn [wr_der tober_any tb_content_len] in E. injection E as <-. exists (any_data v). repeat split; auto.
Qed.

Lemma any_items_read vs d p :
  p = parse_ber_any \/ p = parse_der_any -> items_content any_syntax vs d -> blen d < 2 ^ 24 ->
  exists vs', reads_all p d vs' /\ Forall2 same_object vs vs'.
Proof.
  intros Hp I. induction I as [|v vs enc bs E I IH]; intros Hn; [exists []; split; constructor|].
  rewrite blen_app in Hn. destruct (IH ltac:(lia)) as (vs' & R & F).
  pose proof (items_ok any_syntax any_syntax_ok _ _ I) as Hb.
  destruct (encodes_object _ v enc any_syntax_ok E) as (c & k & t & cb & Ei & (-> & Ht & Hd) & _ & _ & O); [lia|].
  cbn [any_syntax sx_ident] in Ei. injection Ei as <- <- <-. pose proof (object_size _ _ _ _ _ O) as Hs.
  assert (Hne : enc ++ bs <> []) by (destruct enc; [unfold blen in Hs; cbn in Hs; lia|discriminate]).
  assert (P : exists a, p (enc ++ bs) = Ok (bs, a) /\ same_object v a).
  { destruct Hp as [-> | ->].
    - destruct (object_parse_ber_any _ _ _ _ enc bs O) as (rt & rh & E1); try assumption; try lia. eexists. split; [exact E1|]. repeat split.
    - destruct (object_parse_der_any _ _ _ _ enc bs O) as (rt & rh & E1); try assumption; try lia. eexists. split; [exact E1|]. repeat split. }
  destruct P as (a & P & Sa). exists (a :: vs'). split; [econstructor; eassumption|constructor; assumption].
Qed.

Theorem C59_roundtrip (tag : N) (vs : list any) (enc x : bytes) :
  tag < 2 ^ 32 -> encodes (list_syntax tag any_syntax) vs enc -> blen enc < 2 ^ 24 -> bytes_ok x ->
  to_vec (any_items_tober tag vs) = Ok enc
  /\ exists vs' vs'', ps_parse_ber (any_items_parser tag) (enc ++ x) = Ok (x, vs') /\ Forall2 same_object vs vs'
     /\ ps_parse_der (any_items_parser tag) (enc ++ x) = Ok (x, vs'') /\ Forall2 same_object vs vs''.
Proof.
  intros Ht E Hn Hx. pose proof (list_syntax_ok tag any_syntax Ht any_syntax_ok) as HS.
  pose proof (encodes_ok _ _ _ HS E) as He.
  destruct (encodes_object _ vs enc HS E) as (c & k & t & d & Ei & I & _ & Hd & O); [lia|].
  cbn [list_syntax sx_ident] in Ei. injection Ei as <- <- <-. cbn [list_syntax sx_content] in I.
  pose proof (object_size _ _ _ _ _ O) as Hs. split.
  - destruct (items_writer_sound _ _ tag vs d any_writer_sound any_syntax_ok I ltac:(lia)) as [W _]. cbn [wr_ber] in W.
    unfold to_vec, any_items_tober. rewrite (writes_object _ _ _ _ _ _ W O Ht ltac:(lia)). reflexivity.
  - assert (Hi : bytes_ok (enc ++ x)) by (apply bytes_ok_app; auto).
    assert (Od : starts_with_object Universal true tag d (enc ++ x) x).
    { destruct O as (idb & lenb & HR & _ & _ & ->). exists tag, idb, lenb. split; [exact HR|]. split; [apply N.mod_small; exact Ht|].
      rewrite <- !app_assoc. reflexivity. }
    destruct (any_items_read vs d parse_ber_any) as (vs' & R & F); [auto|exact I|lia|].
    destruct (any_items_read vs d parse_der_any) as (vs'' & R' & F'); [auto|exact I|lia|].
    assert (C : forall (p q : bytes -> res (bytes * any)) l dd, (forall i, bytes_ok i -> p i = q i) -> consuming q -> bytes_ok dd -> reads_all q dd l -> reads_all p dd l).
    { intros p q l dd Hpq Cq Hdd Rq. revert Hdd. induction Rq as [|i0 rem v l Hne E0 Rq IH]; intros Hdd; [constructor|].
      apply (ra_cons _ _ rem); [exact Hne|rewrite Hpq by exact Hdd; exact E0|]. apply IH. apply (Cq _ _ _ Hdd E0). }
    exists vs', vs''. split; [|split; [exact F|split; [|exact F']]].
    + apply C59_accept; [exact Hi|]. exists Universal, d. split; [apply object_is_ber; exact Od|].
      apply (C any_parse_ber parse_ber_any); [intros; apply any_parse_ber_eq; assumption|apply any_ber_consuming|exact Hd|exact R].
    + apply C59_accept; [exact Hi|]. exists Universal, d. split; [exact Od|].
      apply (C any_parse_der parse_der_any); [intros; apply any_parse_der_eq; assumption|apply any_der_consuming|exact Hd|exact R'].
Qed.
Print Assumptions C59_roundtrip.

Example C59_case :
  let a := mk_any (header_new Universal false 2 (Definite 1)) [7] in
  let b := mk_any (header_new Application true 3 (Definite 2)) [5; 0] in
  to_vec (any_items_tober 16 [a; b]) = Ok [0x30; 7; 2; 1; 7; 0x63; 2; 5; 0]
  /\ exists l, ps_parse_der (any_items_parser 16) [0x30; 7; 2; 1; 7; 0x63; 2; 5; 0; 9] = Ok ([9], l) /\ Forall2 same_object [a; b] l.
Proof.
  cbv zeta. split; [vm_compute; reflexivity|].
  exists [mk_any (mk_header Universal false 2 (Definite 1) (Some [2]) (Some [2; 1])) [7];
          mk_any (mk_header Application true 3 (Definite 2) (Some [0x63]) (Some [0x63; 2])) [5; 0]].
  split; [vm_compute; reflexivity|]. repeat constructor.
Qed.

(** ** C60: tagged OPTIONAL by hand *)

(** [OptTaggedParser::parse_ber], [parse_der], as documented: nothing is consumed when the input is empty or starts with
    an object with another number; a different class is an error; otherwise the function is applied to the content. *)
Theorem C60_opt_tagged {T} (c : class) (t : N) (op : bytes -> res (bytes * T)) (i : bytes) :
  bytes_ok i ->
  let found rem d := match op d with Ok (_, x) => Ok (rem, Some x) | Err e => Err e | Incomplete n => Incomplete n | Panic => Panic end in
  let answer c' t' rem d :=
    if negb (t' =? t) then Ok (i, None) else if class_eqb c' c then found rem d else Err EUnexpectedClass in
  let ber := opt_tagged_parse parse_ber_any c t (fun _ => op) i in
  let der := opt_tagged_parse (from_der any_codec) c t (fun _ => op) i in
  (i = [] -> ber = Ok (i, None) /\ der = Ok (i, None))
  /\ (forall c' k t' d rem, starts_with_ber_object c' k t' d i rem -> ber = answer c' t' rem d)
  /\ (forall c' k t' d rem, starts_with_object c' k t' d i rem -> der = answer c' t' rem d)
  /\ (forall r, ber = Ok r -> i = [] \/ exists c' k t' d rem, starts_with_ber_object c' k t' d i rem)
  /\ (forall r, der = Ok r -> i = [] \/ exists c' k t' d rem, starts_with_object c' k t' d i rem).
Proof.
  intros Hi found answer ber der. unfold ber, der, opt_tagged_parse. rewrite from_der_any_eq.
  assert (Z : blen i =? 0 = true <-> i = []).
  { split; [intros E; apply blen_zero, N.eqb_eq, E|intros ->; reflexivity]. }
  assert (G : forall h d rem, h_tag h =? t = (h_tag h =? t) ->
    (if negb (h_tag h =? t) then Ok (i, None)
     else if negb (class_eqb (h_class h) c) then Err EUnexpectedClass
     else let* (_, x) := op d in Ok (rem, Some x)) = answer (h_class h) (h_tag h) rem d).
  { intros h d rem _. unfold answer, found. destruct (h_tag h =? t), (class_eqb (h_class h) c); reflexivity. }
  assert (NZ : forall r a p, i = [] -> p = parse_ber_any \/ p = parse_der_any -> p i = Ok (r, a) -> False).
  { intros r a p -> [-> | ->] E; vm_compute in E; discriminate. }
  split; [intros ->; split; reflexivity|]. split; [|split; [|split]].
  - intros c' k t' d rem O. destruct (ber_object_any _ _ _ _ _ _ Hi O) as (h & E & <- & <- & <-).
    destruct (blen i =? 0) eqn:B; [pose proof (proj1 Z eq_refl); exfalso; eauto|]. rewrite E. cbn [bind any_header any_data]. apply G. reflexivity.
  - intros c' k t' d rem O. destruct (der_object_any _ _ _ _ _ _ Hi O) as (h & E & <- & <- & <-).
    destruct (blen i =? 0) eqn:B; [pose proof (proj1 Z eq_refl); exfalso; eauto|]. rewrite E. cbn [bind any_header any_data]. apply G. reflexivity.
  - intros r E. destruct (blen i =? 0) eqn:B; [left; apply Z; reflexivity|right]. apply bind_ok in E as ([rem a] & E & _).
    destruct (any_ber_object _ _ _ Hi E) as (O & _). eauto 6.
  - intros r E. destruct (blen i =? 0) eqn:B; [left; apply Z; reflexivity|right]. apply bind_ok in E as ([rem a] & E & _).
    destruct (any_der_object _ _ _ Hi E) as (O & _). eauto 6.
Qed.
Print Assumptions C60_opt_tagged.

Example C60_case :
  let f := opt_tagged_parse parse_ber_any ContextSpecific 0 (fun _ => lg_from_ber (legacy_of (TBase (BUint 1)))) in
  f [0xa0; 3; 2; 1; 5; 9] = Ok ([9], Some 5%Z) /\ f [0xa1; 3; 2; 1; 5; 9] = Ok ([0xa1; 3; 2; 1; 5; 9], None)
  /\ f [0x60; 3; 2; 1; 5; 9] = Err EUnexpectedClass /\ f [] = Ok ([], None) /\ f [0xa0; 2; 4; 0] = Err EUnexpectedTag.
Proof. vm_compute. repeat split. Qed.

(** ** C61: [Any::as_optional] *)

(** A type whose content is never rejected for a tag inside: [None] exactly when the object has another tag. *)
Theorem C61_as_optional_partial {T} accept (content : header -> bytes -> res (bytes * T)) (a : any) :
  content (any_header a) (any_data a) <> Err EUnexpectedTag ->
  let r := as_optional (default_try_from accept content) a in
  (r = Ok None <-> accept (h_tag (any_header a)) = false)
  /\ (forall x, r = Ok (Some x) <-> accept (h_tag (any_header a)) = true /\ exists rem, content (any_header a) (any_data a) = Ok (rem, x)).
Proof.
  intros H r. unfold r, as_optional, default_try_from.
  destruct (accept (h_tag (any_header a))).
  - destruct (content (any_header a) (any_data a)) as [[rem y]|e|n|]; cbn [close bind].
    + split; [split; discriminate|]. intros x. split; [intros E; injection E as <-; eauto|].
      intros [_ (r' & E)]. injection E as _ <-. reflexivity.
    + destruct e; try congruence; (split; [split; discriminate|]); intros x; (split; [discriminate|intros [_ (r' & E)]; discriminate]).
    + split; [split; discriminate|]. intros x. split; [discriminate|intros [_ (r' & E)]; discriminate].
    + split; [split; discriminate|]. intros x. split; [discriminate|intros [_ (r' & E)]; discriminate].
  - split; [tauto|]. intros x. split; [discriminate|intros [E _]; discriminate].
Qed.
Print Assumptions C61_as_optional_partial.

(** When the mismatch is inside the object, the object is present but reported absent: [0] EXPLICIT INTEGER holding a
    NULL. *)
Theorem C61_inner_tag_refuted :
  let L := explicit_legacy ContextSpecific 0 (legacy_of (TBase (BUint 1))) in
  exists a, parse_ber_any [0xa0; 2; 5; 0] = Ok ([], a) /\ h_tag (any_header a) = 0 /\ h_class (any_header a) = ContextSpecific
             /\ as_optional (lg_try_from L) a = Ok None.
Proof.
  exists (mk_any (mk_header ContextSpecific true 0 (Definite 2) (Some [0xa0]) (Some [0xa0; 2])) [5; 0]). repeat split; vm_compute; reflexivity.
Qed.
Print Assumptions C61_inner_tag_refuted.

Example C61_case :
  let f := as_optional (try_from_any (base_codec (BUint 1))) in
  f (mk_any (header_new Universal false 2 (Definite 1)) [5]) = Ok (Some 5%Z)
  /\ f (mk_any (header_new Universal false 4 (Definite 1)) [5]) = Ok None
  /\ f (mk_any (header_new Universal false 2 (Definite 2)) [5; 5]) = Err EIntegerTooLarge.
Proof. vm_compute. repeat split. Qed.

(** ** C62: sequences of indefinite length *)

(** A value whose encoding has tag number 0 and no contents. *)
Definition end_like {A} (S : syntax A) (v : A) : Prop := snd (sx_ident S v) = 0 /\ sx_content S v [].

Lemma indefinite_elements {A} (S : syntax A) vs d k :
  syntax_ok S -> items_content S vs d -> blen d < 2 ^ 24 -> Forall (fun v => ~ end_like S v) vs -> elements marker_like marker_like (Datatypes.S k) d.
Proof.
  intros HS I. induction I as [|v vs enc bs E I IH]; intros Hn HF; [constructor|].
  rewrite blen_app in Hn. inversion HF as [|x y Hv HF']; subst.
  destruct (encodes_object _ v enc HS E) as (c & f & t & cb & Ei & Ec & Ht & Hd & O); [lia|].
  destruct O as (idb & lenb & HR & S1 & S2 & ->). rewrite <- !app_assoc.
  apply (elements_cons _ _ _ c f t (Definite (blen cb)) idb lenb cb bs HR); [| |apply IH; [lia|exact HF']].
  - intros (c' & k' & t' & idb' & lenb' & HR' & Ht' & Em).
    assert (U : t mod 2 ^ 32 = t' mod 2 ^ 32 /\ Definite (blen cb) = Definite 0).
    { pose proof (parse_header_at c f t (Definite (blen cb)) idb lenb [] (Forall_nil _) HR) as P1.
      pose proof (parse_header_at c' k' t' (Definite 0) idb' lenb' [] (Forall_nil _) HR') as P2.
      rewrite app_assoc, Em, <- app_assoc, P2 in P1. unfold hdr in P1. injection P1 as _ _ E1 E2 _ _. rewrite E1, E2. auto. }
    destruct U as [U Z]. rewrite N.mod_small in U by exact Ht. apply Hv. split; [rewrite Ei; cbn [snd]; lia|].
    injection Z as Z. destruct cb; [exact Ec | discriminate].
  - constructor. reflexivity.
Qed.

Lemma indefinite_object d m x : elements marker_like marker_like 49 d -> marker_like m -> length m = 2%nat -> bytes_ok (d ++ m ++ x) ->
  exists h, parse_ber_any ([0x30; 0x80] ++ d ++ m ++ x) = Ok (x, mk_any h d) /\ h_constructed h = true /\ h_tag h = 16.
Proof.
  intros El Mk Lm Hb.
  assert (HR : readable_header Universal true 16 Indefinite [0x30] [0x80]).
  { split; [split; [apply (id_low Universal true 16); lia|split; [constructor|auto]]|split; [vm_compute; discriminate|intros n Hc; discriminate Hc]]. }
  assert (Hi : bytes_ok ([0x30; 0x80] ++ d ++ m ++ x)).
  { apply bytes_ok_app. split; [repeat constructor; lia | exact Hb]. }
  assert (O : starts_with_ber_object Universal true 16 d ([0x30; 0x80] ++ d ++ m ++ x) x).
  { exists 16, Indefinite, [0x30], [0x80], (d ++ m). split; [exact HR|]. split; [reflexivity|]. split; [rewrite <- !app_assoc; reflexivity|].
    split; [|unfold content_of; rewrite app_length, Lm, Nat.add_sub, firstn_app, Nat.sub_diag, firstn_all, app_nil_r; reflexivity].
    apply contents_indefinite; assumption. }
  destruct (ber_object_any _ _ _ _ _ _ Hi O) as (h & E & Cl & K & Ta). exists h. auto.
Qed.

(** [IndefiniteVec]: the elements between 30 80 and 00 00; read as BER, by both entry points; not read as DER. *)
Theorem C62_indefinite_partial {A} (t : ty A) (vs : list A) (d x : bytes) :
  wf t -> items_content (syntax_of t) vs d -> blen d < 2 ^ 24 -> bytes_ok x ->
  Forall (fun v => ~ end_like (syntax_of t) v) vs ->
  let enc := [0x30; 0x80] ++ d ++ [0; 0] in
  encode (indefinite_vec_tober (map (wr_ber (writer_of t)) vs)) = Ok (enc, blen enc)
  /\ ps_parse_ber (parser_of (TVec t)) (enc ++ x) = Ok (x, vs)
  /\ (has_legacy t -> lg_from_ber (legacy_of (TVec t)) (enc ++ x) = Ok (x, vs))
  /\ ps_parse_der (parser_of (TVec t)) (enc ++ x) = Err (EDerConstraintFailed DCIndefiniteLength).
Proof.
  intros Hwf I Hn Hx HF enc. destruct (types_sound t Hwf) as (S & P & W & L & _).
  pose proof (items_ok _ S _ _ I) as Hd.
  assert (HR : readable_header Universal true 16 Indefinite [0x30] [0x80]).
  { split; [split; [apply (id_low Universal true 16); lia|split; [constructor|auto]]|split; [vm_compute; discriminate|intros n Hc; discriminate Hc]]. }
  assert (Hi : bytes_ok (enc ++ x)).
  { unfold enc. repeat (apply bytes_ok_app; split); auto; repeat constructor; lia. }
  assert (O : starts_with_ber_object Universal true 16 d (enc ++ x) x).
  { exists 16, Indefinite, [0x30], [0x80], (d ++ [0; 0]). split; [exact HR|]. split; [reflexivity|]. split.
    - unfold enc. rewrite <- !app_assoc. reflexivity.
    - split; [|unfold content_of; rewrite app_length; cbn [length]; rewrite Nat.add_sub, firstn_app, Nat.sub_diag, firstn_all, app_nil_r; reflexivity].
      apply contents_indefinite; [eapply indefinite_elements; eassumption|].
      exists Universal, false, 0, [0], [0]. split; [|split; reflexivity].
      split; [split; [apply (id_low Universal false 0); lia|split; [apply (lo_short 0); lia|discriminate]]|split; [vm_compute; discriminate|intros n Hc; injection Hc as <-; lia]]. }
  destruct (ber_object_any _ _ _ _ _ _ Hi O) as (h & E & Cl & K & Ta).
  split; [|split; [|split]].
  - destruct (items_write (syntax_of t) (wr_ber (writer_of t)) vs d) as [H1 _]; [|exact I|exact Hn|].
    + intros y e Ey Hy. apply (writer_encodes _ _ y e W S Ey Hy).
    + unfold encode, indefinite_vec_tober, write_header. cbn [tb_write_content tb_encoder tb_class tb_constructed tb_tag tb_content_len].
      rewrite H1. cbn [wseq bind].
      replace (write_tag_info EncConstructedIndefinite Universal true TagSequence) with (Ok ([48], 1) : wres) by (vm_compute; reflexivity).
      cbn [write_length wseq bind]. unfold enc. rewrite !blen_app. reflexivity.
  - apply default_parse_ber_ok. exists (mk_any h d), []. split; [exact E|]. cbn [any_header any_data]. split; [rewrite Ta; reflexivity|].
    apply (vec_contents _ _ _ _ h P S I Hn K).
  - intros HL. destruct (legacy_items _ _ _ _ (L HL) S I Hn) as [I1 _]. cbn [legacy_of vec_legacy lg_from_ber]. unfold blanket_from_ber. rewrite E. cbn [bind].
    unfold vec_try_from. cbn [any_header any_data]. unfold assert_tag, assert_constructed. rewrite K, Ta. cbn [bind TagSequence N.eqb Pos.eqb]. rewrite I1. reflexivity.
  - cbn [parser_of vec_parser default_parser codec_parser ps_parse_der]. unfold parse_der.
    assert (PH : header_parse_der (enc ++ x) = Err (EDerConstraintFailed DCIndefiniteLength)); [|rewrite PH; reflexivity].
    assert (Hr : bytes_ok ((d ++ [0; 0]) ++ x)) by (repeat (apply bytes_ok_app; split); auto; repeat constructor; lia).
    pose proof (parse_header_at _ _ _ _ _ _ _ Hr HR) as PH. unfold header_parse_ber in PH. unfold header_parse_der.
    change (enc ++ x) with ([48] ++ [128] ++ (d ++ [0; 0]) ++ x). rewrite PH. reflexivity.
Qed.
Print Assumptions C62_indefinite_partial.

Example C62_case :
  let t := TBase (BUint 1) in
  encode (indefinite_vec_tober (map (wr_ber (writer_of t)) [5; 127]%Z)) = Ok ([0x30; 0x80; 2; 1; 5; 2; 1; 127; 0; 0], 10)
  /\ ps_parse_ber (parser_of (TVec t)) [0x30; 0x80; 2; 1; 5; 2; 1; 127; 0; 0; 9] = Ok ([9], [5; 127]%Z)
  /\ Forall (fun v => ~ end_like (syntax_of t) v) [5; 127]%Z.
Proof. split; [|split]; [vm_compute; reflexivity ..|repeat constructor; intros [H _]; discriminate H]. Qed.

(** The first value written as two octets with tag number 0, if there is one, ends the list: the values before it are read, and
    what was written after it is left over, with the marker. *)
Theorem C62_cut {A} (t : ty A) (vs ws : list A) (v : A) (b : N) (d d' x : bytes) :
  wf t -> items_content (syntax_of t) vs d -> encodes (syntax_of t) v [b; 0] -> items_content (syntax_of t) ws d' ->
  blen d < 2 ^ 24 -> blen d' < 2 ^ 24 -> bytes_ok x ->
  Forall (fun v => ~ end_like (syntax_of t) v) vs -> snd (sx_ident (syntax_of t) v) = 0 ->
  let enc := [0x30; 0x80] ++ d ++ [b; 0] ++ d' ++ [0; 0] in
  ps_parse_ber (parser_of (TVec t)) (enc ++ x) = Ok (d' ++ [0; 0] ++ x, vs)
  /\ (has_legacy t -> lg_from_ber (legacy_of (TVec t)) (enc ++ x) = Ok (d' ++ [0; 0] ++ x, vs)).
Proof.
  intros Hwf I Ev J Hn Hm Hx HF Z enc. destruct (types_sound t Hwf) as (S & P & W & L & _).
  pose proof (items_ok _ S _ _ I) as Hd. pose proof (items_ok _ S _ _ J) as Hd'.
  destruct (encodes_object _ v [b; 0] S Ev) as (c & f & n & cb & Ei & Ec & Ht & Hcb & (idb & lenb & HR & S1 & S2 & Q)); [reflexivity|].
  rewrite Ei in Z. cbn [snd] in Z. subst n.
  assert (Mk : marker_like [b; 0]).
  { assert (Li : (1 <= length idb)%nat) by (destruct idb; [inversion S1; discriminate | cbn; lia]).
    assert (Ll : (1 <= length lenb)%nat) by (destruct lenb; [inversion S2; discriminate | cbn; lia]).
    pose proof (f_equal (@length N) Q) as QL. rewrite !app_length in QL. cbn in QL. destruct cb; [|cbn in QL; lia]. rewrite app_nil_r in Q.
    exists c, f, 0, idb, lenb. split; [exact HR|]. split; [reflexivity | exact Q]. }
  assert (Hb : bytes_ok [b; 0]).
  { rewrite Q. destruct HR as [(HO & HL & _) _]. apply bytes_ok_app. split; [exact (ident_octets_ok _ _ _ _ HO)|]. apply bytes_ok_app. split; [exact (length_octets_ok _ _ HL) | exact Hcb]. }
  destruct (indefinite_object d [b; 0] (d' ++ [0; 0] ++ x)) as (h & E & K & Ta); [eapply indefinite_elements; eassumption | exact Mk | reflexivity | |].
  { repeat (apply bytes_ok_app; split); auto. repeat constructor; lia. }
  replace (enc ++ x) with ([0x30; 0x80] ++ d ++ [b; 0] ++ d' ++ [0; 0] ++ x) by (unfold enc; rewrite <- !app_assoc; reflexivity).
  split.
  - apply default_parse_ber_ok. exists (mk_any h d), []. split; [exact E|]. cbn [any_header any_data]. split; [rewrite Ta; reflexivity|].
    apply (vec_contents _ _ _ _ h P S I Hn K).
  - intros HL. destruct (legacy_items _ _ _ _ (L HL) S I Hn) as [I1 _]. cbn [legacy_of vec_legacy lg_from_ber]. unfold blanket_from_ber. rewrite E. cbn [bind].
    unfold vec_try_from. cbn [any_header any_data]. unfold assert_tag, assert_constructed. rewrite K, Ta. cbn [bind TagSequence N.eqb Pos.eqb]. rewrite I1. reflexivity.
Qed.
Print Assumptions C62_cut.

(** [[0] IMPLICIT OCTET STRING]: a value of one octet, which has tag number 0 but is not empty, then an empty one, then another. *)
Example C62_cut_case :
  let t := TImplicit ContextSpecific 0 (TBase BOctets) in
  wf t /\ items_content (syntax_of t) [[7]] [0x80; 1; 7] /\ encodes (syntax_of t) [] [0x80; 0]
  /\ Forall (fun v => ~ end_like (syntax_of t) v) [[7]] /\ snd (sx_ident (syntax_of t) []) = 0
  /\ ps_parse_ber (parser_of (TVec t)) [0x30; 0x80; 0x80; 1; 7; 0x80; 0; 0x80; 1; 5; 0; 0; 9] = Ok ([0x80; 1; 5; 0; 0; 9], [[7]]).
Proof.
  cbv zeta. set (t := TImplicit ContextSpecific 0 (TBase BOctets)).
  assert (E : forall v, bytes_ok v -> blen v < 128 -> encodes (syntax_of t) v ([0x80] ++ [blen v] ++ v)).
  { intros v Hv Hl. exists ContextSpecific, false, 0, v, [0x80], [blen v]. split; [reflexivity|]. split; [repeat split; assumption|].
    split; [apply (ids_low ContextSpecific false 0); lia|]. split; [apply (los_short (blen v)); lia | reflexivity]. }
  split; [repeat split; vm_compute; reflexivity|].
  split; [apply (items_cons _ [7] [] [0x80; 1; 7] []); [apply (E [7]); [repeat constructor; lia | reflexivity] | constructor]|].
  split; [apply (E []); [constructor | reflexivity]|].
  split; [repeat constructor; intros [_ H]; cbn in H; destruct H; discriminate|]. split; [reflexivity | vm_compute; reflexivity].
Qed.

(** Without the condition on tag numbers the values are lost: [[0] IMPLICIT OCTET STRING], first value empty. *)
Theorem C62_indefinite_refuted :
  let t := TImplicit ContextSpecific 0 (TBase BOctets) in
  exists enc, encode (indefinite_vec_tober (map (wr_ber (writer_of t)) [[]; [5]])) = Ok (enc, blen enc)
              /\ ps_parse_ber (parser_of (TVec t)) enc = Ok ([0x80; 1; 5; 0; 0], []).
Proof. exists [0x30; 0x80; 0x80; 0; 0x80; 1; 5; 0; 0]. split; vm_compute; reflexivity. Qed.
Print Assumptions C62_indefinite_refuted.

(** ** C63: the end-of-contents marker as a type *)

(** [EndOfContent] is read from exactly the empty objects with tag number 0, of any class and form. *)
Theorem C63_accept_partial (i rem : bytes) :
  bytes_ok i ->
  (parse_ber eoc_codec i = Ok (rem, tt) <-> exists c k, starts_with_object c k 0 [] i rem)
  /\ (from_ber eoc_codec i = Ok (rem, tt) <-> exists c k, starts_with_object c k 0 [] i rem).
Proof.
  intros Hi.
  assert (B : forall a, (exists r, is_tag TagEndOfContent (h_tag (any_header a)) = true /\ eoc_content (any_header a) (any_data a) = Ok (r, tt))
                        <-> h_tag (any_header a) = 0 /\ h_length (any_header a) = Definite 0).
  { intros a. unfold eoc_content, is_null. split.
    - intros (r & A & C). apply is_tag_iff in A. split; [exact A|]. destruct (h_length (any_header a)) as [m|]; [|discriminate].
      destruct (m =? 0) eqn:Em; [|discriminate]. apply N.eqb_eq in Em. rewrite Em. reflexivity.
    - intros [A ->]. exists (any_data a). split; [apply is_tag_iff; exact A|reflexivity]. }
  assert (O : (exists a, parse_ber_any i = Ok (rem, a) /\ h_tag (any_header a) = 0 /\ h_length (any_header a) = Definite 0)
              <-> exists c k, starts_with_object c k 0 [] i rem).
  { split.
    - intros (a & E & A & C). apply parse_ber_any_ok in E as (c & k & t & l & idb & lenb & bs & HR & -> & Hc & ->); [|exact Hi].
      cbn [any_header h_tag h_length hdr] in A, C. subst l. inversion Hc as [d n b Hb|]; subst. apply blen_zero in Hb. subst bs.
      exists c, k, t, idb, lenb. auto.
    - intros (c & k & t & idb & lenb & HR & Ht & ->). exists (mk_any (hdr c k t (Definite 0) idb lenb) []). split.
      + apply parse_ber_any_ok; [exact Hi|]. exists c, k, t, (Definite 0), idb, lenb, []. split; [exact HR|]. split; [reflexivity|].
        split; [constructor; reflexivity|reflexivity].
      + cbn [any_header h_tag h_length hdr]. auto. }
  split; rewrite <- O; clear O.
  - change (parse_ber eoc_codec i) with (ps_parse_ber (default_parser (is_tag TagEndOfContent) eoc_content (fun _ _ => Err EUnsupported)) i).
    rewrite default_parse_ber_ok. split.
    + intros (a & r & E & A & C). exists a. split; [exact E|]. apply B. eauto.
    + intros (a & E & C). apply B in C as (r & A & C). eauto.
  - unfold from_ber, eoc_codec. cbn [try_from_any]. unfold default_try_from. split.
    + intros E. apply bind_ok in E as ([r a] & E & F). apply bind_ok in F as (u & F & G). injection G as -> ->. exists a. split; [exact E|]. apply B.
      destruct (is_tag TagEndOfContent (h_tag (any_header a))) eqn:A; [|discriminate].
      destruct (eoc_content (any_header a) (any_data a)) as [[r' []]| | |] eqn:C; try discriminate. exists r'. auto.
    + intros (a & E & C). apply B in C as (r & A & C). rewrite E. cbn [bind]. rewrite A, C. reflexivity.
Qed.
Print Assumptions C63_accept_partial.

(** So octets other than 00 00 are accepted: an empty context-specific [0]. *)
Theorem C63_marker_refuted : exists i, parse_ber eoc_codec i = Ok ([], tt) /\ i <> [0; 0].
Proof. exists [0x80; 0]. split; [vm_compute; reflexivity|discriminate]. Qed.
Print Assumptions C63_marker_refuted.

Example C63_case :
  parse_ber eoc_codec [0; 0; 7] = Ok ([7], tt) /\ starts_with_object Universal false 0 [] [0; 0; 7] [7]
  /\ parse_ber eoc_codec [0; 1; 7] = Err EInvalidLength /\ parse_ber eoc_codec [5; 0] = Err EUnexpectedTag.
Proof.
  split; [vm_compute; reflexivity|split; [|split; vm_compute; reflexivity]].
  exists 0, [0], [0]. split; [|split; reflexivity].
  split; [split; [apply (id_low Universal false 0); lia|split; [apply (lo_short 0); lia|discriminate]]|split; [vm_compute; discriminate|intros n Hc; injection Hc as <-; vm_compute; reflexivity]].
Qed.
