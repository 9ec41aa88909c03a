(** C71: which readers ask for more octets although the object is complete. *)
From Verif Require Import Base PArith MHeader MEncode SHeader PHeader PEncode MBer SBer PBer PIter PCodec.
From Verif Require Import MInt MSeg PSeg MOid MText MTime MCont PropTag PropItems PSafe.
From Verif Require Import SCont SBase PTypes MPdv MDerive SDerive PDerive PropSafe.

(** [p] asks for more octets only if the object itself, as read by [obj], is cut short. *)
Definition asks_for_object {A B} (obj : bytes -> res (bytes * A)) (p : bytes -> res (bytes * B)) : Prop :=
  forall i n, bytes_ok i -> p i = Incomplete n -> obj i = Incomplete n.

(** A result that is not [Incomplete]. *)
Definition quiet {A} (r : res A) : Prop := match r with Incomplete _ => False | _ => True end.
Lemma quiet_bind {A B} (r : res A) (f : A -> res B) : quiet r -> (forall a, r = Ok a -> quiet (f a)) -> quiet (bind r f).
Proof. intros H F. destruct r; cbn [bind]; [apply F; reflexivity|exact I|exact H|exact I]. Qed.
Lemma quiet_close {A} (r : res A) : quiet (close r).
Proof. destruct r; exact I. Qed.

Ltac quiet_step :=
  match goal with
  | |- quiet (bind _ _) => apply quiet_bind; [|intros ? ?]
  | |- quiet (Ok _) => exact I
  | |- quiet (Err _) => exact I
  | |- quiet Panic => exact I
  | |- quiet (close _) => apply quiet_close
  | |- quiet (if ?b then _ else _) => destruct b eqn:?
  | |- quiet (match ?x with (_, _) => _ end) => destruct x eqn:?
  | |- quiet (match ?x with [] => _ | _ :: _ => _ end) => destruct x
  | |- quiet (match ?x with Some _ => _ | None => _ end) => destruct x eqn:?
  | |- quiet (assert_primitive _) => unfold assert_primitive
  | |- quiet (assert_constructed _) => unfold assert_constructed
  | |- quiet (assert_tag _ _) => unfold assert_tag
  | |- quiet (assert_class _ _) => unfold assert_class
  | |- quiet (check_class _ _) => unfold check_class
  | |- quiet (check_tag _ _) => unfold check_tag
  | |- quiet (length_assert_definite _) => unfold length_assert_definite
  end.
Ltac quiet_tac := repeat quiet_step.

(** The content is as long as its header says. *)
Definition fits (h : header) (d : bytes) : Prop :=
  bytes_ok d /\ match h_length h with Definite n => n = blen d | Indefinite => h_constructed h = true end.
Definition quiet_content {T} (f : header -> bytes -> res (bytes * T)) : Prop := forall h d, fits h d -> quiet (f h d).

Lemma ber_any_fits i r a : bytes_ok i -> parse_ber_any i = Ok (r, a) -> fits (any_header a) (any_data a).
Proof.
  intros Hi E. split; [exact (parse_ber_any_data _ _ _ Hi E)|].
  apply parse_ber_any_ok in E as (c & k & t & l & idb & lenb & bs & HR & -> & Hc & ->); [|exact Hi].
  cbn [any_header any_data h_length h_constructed]. destruct l as [n|].
  - symmetry. exact (contents_definite_len _ _ _ _ _ Hc).
  - destruct HR as [(_ & HL & HK) _]. apply HK. reflexivity.
Qed.
Lemma der_any_fits i r a : bytes_ok i -> parse_der_any i = Ok (r, a) -> fits (any_header a) (any_data a).
Proof.
  intros Hi E. split; [exact (parse_der_any_data _ _ _ Hi E)|].
  apply parse_der_any_ok in E as (c & k & t & n & idb & lenb & bs & HR & -> & Hn & ->); [|exact Hi].
  cbn [any_header any_data h_length]. symmetry. exact Hn.
Qed.

(** ** Reading an object and then its content *)

Lemma codec_ber_asks {T} (p : codec T) : quiet_content (ber_content p) -> asks_for_object parse_ber_any (parse_ber p).
Proof.
  intros H i n Hi E. unfold parse_ber in E. unfold parse_ber_any.
  destruct (header_parse_ber i) as [[r h]|e|m|] eqn:Eh; cbn [bind] in *; try congruence.
  destruct (accept_tag p (h_tag h)); [|discriminate].
  destruct (ber_object_content h r MAX_RECURSION) as [[r' d]|e|m|] eqn:Ec; cbn [bind] in *; try congruence.
  assert (F : fits h d).
  { assert (Ea : parse_ber_any i = Ok (r', mk_any h d)) by (unfold parse_ber_any; rewrite Eh; cbn [bind]; rewrite Ec; reflexivity).
    exact (ber_any_fits _ _ _ Hi Ea). }
  specialize (H h d F). destruct (ber_content p h d) as [[? ?]|e|m|]; cbn [bind quiet] in *; try discriminate. contradiction.
Qed.
Lemma codec_der_asks {T} (p : codec T) : quiet_content (der_content p) -> asks_for_object parse_der_any (parse_der p).
Proof.
  intros H i n Hi E. unfold parse_der in E. unfold parse_der_any.
  destruct (header_parse_der i) as [[r h]|e|m|] eqn:Eh; cbn [bind] in *; try congruence.
  destruct (h_length h) as [l|] eqn:Hl; [|discriminate]. destruct (accept_tag p (h_tag h)); [|discriminate].
  unfold length_assert_definite, der_get_content. rewrite Hl. cbn [is_definite bind].
  destruct (take l r) as [[r' d]|e|m|] eqn:Ec; cbn [bind] in *; try congruence.
  assert (F : fits h d).
  { assert (Ea : parse_der_any i = Ok (r', mk_any h d)).
    { unfold parse_der_any. rewrite Eh. cbn [bind]. unfold length_assert_definite, der_get_content. rewrite Hl. cbn [is_definite bind].
      rewrite Ec. reflexivity. }
    exact (der_any_fits _ _ _ Hi Ea). }
  specialize (H h d F). destruct (der_content p h d) as [[? ?]|e|m|]; cbn [bind quiet] in *; try discriminate. contradiction.
Qed.
Lemma map_asks {A T} (obj : bytes -> res (bytes * A)) (p : bytes -> res (bytes * T)) (f : A -> res T) (Q : A -> Prop) :
  (forall i, p i = let* (r, a) := obj i in let* x := f a in Ok (r, x)) ->
  (forall i r a, bytes_ok i -> obj i = Ok (r, a) -> Q a) -> (forall a, Q a -> quiet (f a)) -> asks_for_object obj p.
Proof.
  intros E HQ H i n Hi En. rewrite E in En. destruct (obj i) as [[r a]|e|m|] eqn:Eo; cbn [bind] in En; try congruence.
  specialize (H a (HQ _ _ _ Hi Eo)). destruct (f a); cbn [bind quiet] in *; try discriminate. contradiction.
Qed.

(** ** The older traits: conversions from [Any] *)

Lemma seq_items_quiet {T} (p : bytes -> res (bytes * T)) i : quiet (seq_items p i).
Proof.
  unfold seq_items. generalize (S (length i)). intros n. revert i. induction n as [|n IH]; intros i; [exact I|]. cbn [seq_collect].
  quiet_tac. apply IH.
Qed.
Lemma base_try_quiet {A} (b : base A) a : quiet (try_from_any (base_codec b) a).
Proof. destruct b; cbn; unfold default_try_from, raw_try_from; quiet_tac. Qed.
Lemma try_from_quiet {A} (t : ty A) : forall a, quiet (lg_try_from (legacy_of t) a).
Proof.
  induction t; intros a; cbn [legacy_of lg_try_from codec_legacy vec_legacy setof_legacy btreeset_legacy explicit_legacy implicit_legacy no_legacy].
  - apply base_try_quiet.
  - unfold vec_try_from. quiet_tac. apply seq_items_quiet.
  - exact I.
  - unfold setof_try_from. quiet_tac. apply seq_items_quiet.
  - unfold btreeset_try_from, setof_try_from. quiet_tac. apply seq_items_quiet.
  - unfold explicit_try_from. quiet_tac.
  - unfold implicit_try_from. quiet_tac. apply IHt.
Qed.
Lemma dtry_from_quiet {A} (t : dty A) : forall a, quiet (lg_try_from (dlegacy_of t) a).
Proof.
  induction t; intros a.
  - exact (try_from_quiet t a).
  - change (quiet (vec_try_from (dlegacy_of t) a)). unfold vec_try_from. quiet_tac. apply seq_items_quiet.
  - change (quiet (struct_try_from (struct_tag set) (lber_of fs) a)). unfold struct_try_from. quiet_tac.
  - exact I.
  - exact I.
  - exact (IHt a).
Qed.
Lemma from_ber_is_blanket {A} (t : dty A) i :
  lg_from_ber (dlegacy_of t) i = blanket_from_ber (lg_try_from (dlegacy_of t)) i
  \/ lg_from_ber (dlegacy_of t) i = Err EUnsupported.
Proof.
  destruct t as [A t|A t|A s fs|A k vs|ds|A t]; try (left; reflexivity); try (right; reflexivity).
  change (lg_from_ber (dlegacy_of (DTy t))) with (lg_from_ber (legacy_of t)).
  change (lg_try_from (dlegacy_of (DTy t))) with (lg_try_from (legacy_of t)).
  destruct t; try (left; reflexivity); right; reflexivity.
Qed.

(** ** Contents *)

Lemma int_input_quiet d : quiet (check_der_int_input d).
Proof. destruct d as [|a [|b d]]; [exact I|exact I|]. cbn [check_der_int_input]. quiet_tac. Qed.
Lemma int_quiet w h d : quiet (int_ber_content w h d).
Proof. unfold int_ber_content, decode_array_int, decode_array_uint. quiet_tac. Qed.
Lemma uint_quiet w h d : quiet (uint_ber_content w h d).
Proof. unfold uint_ber_content, decode_array_uint. quiet_tac. Qed.
Lemma der_get_quiet h d : fits h d -> quiet (der_get_content h d).
Proof. intros [_ F]. unfold der_get_content. destruct (h_length h); [subst n; rewrite take_all; exact I|exact I]. Qed.
Lemma integer_quiet : quiet_content integer_ber_content.
Proof. intros h d F. unfold integer_ber_content. quiet_tac. apply der_get_quiet, F. Qed.
Lemma boolean_quiet : quiet_content boolean_ber_content.
Proof.
  intros h d [_ F]. unfold boolean_ber_content. apply quiet_bind; [quiet_tac|]. intros _ _.
  destruct (h_length h) as [n|]; cbn [blength_eqb] in *; [|exact I].
  destruct (N.eqb_spec n 1); [|exact I]. destruct d; [exfalso; unfold blen in F; cbn [length] in F; lia|exact I].
Qed.
Lemma get_content_definite h d : fits h d -> is_definite (h_length h) = true -> ber_get_content h d = Ok ([], d).
Proof.
  intros [Hd F] D. destruct (h_length h) as [n|] eqn:Hl; [|discriminate].
  exact (get_content_exact h d n Hl (eq_sym F)).
Qed.
Lemma primitive_definite h d : fits h d -> h_constructed h = false -> is_definite (h_length h) = true.
Proof. intros [_ F] K. destruct (h_length h); [reflexivity|congruence]. Qed.

Lemma seg_loop_quiet {T} accept (append : T -> T -> T) seg : quiet_content seg ->
  forall n d v, bytes_ok d -> quiet (seg_loop accept append seg n d v).
Proof.
  intros H. induction n as [|n IH]; intros d v Hd; [exact I|]. cbn [seg_loop].
  destruct (blen d =? 0); [exact I|]. apply quiet_bind; [apply quiet_close|]. intros [rem o] E.
  assert (E' : any_parse_ber d = Ok (rem, o)) by (destruct (any_parse_ber d); cbn [close] in E; congruence).
  destruct (any_ber_next _ _ _ Hd E') as (_ & Hr & _). rewrite any_parse_ber_eq in E' by exact Hd. cbv zeta.
  quiet_tac; [apply IH, Hr|apply H; exact (ber_any_fits _ _ _ Hd E')|apply IH, Hr].
Qed.
Lemma segmented_quiet {T} accept (dflt : T) append prim n :
  (forall h d, h_constructed h = false -> fits h d -> quiet (prim h d)) -> quiet_content (parse_ber_segmented accept dflt append prim n).
Proof.
  intros H. induction n as [|n IH]; intros h i F; [exact I|]. cbn [parse_ber_segmented].
  destruct (blen i =? 0); [exact I|]. destruct (h_constructed h) eqn:K.
  - assert (E : (if is_definite (h_length h) then ber_get_content h i else Ok ([], i)) = Ok ([], i)).
    { destruct (is_definite (h_length h)) eqn:D; [exact (get_content_definite h i F D)|reflexivity]. }
    rewrite E. cbn [bind]. apply quiet_bind; [apply seg_loop_quiet; [exact IH|apply F]|]. intros v _. exact I.
  - rewrite (get_content_definite h i F (primitive_definite h i F K)). cbn [bind]. quiet_tac. apply H; assumption.
Qed.
Lemma octet_segmented_quiet : quiet_content octet_segmented.
Proof. apply segmented_quiet. intros h d _ _. exact I. Qed.
Lemma octet_quiet : quiet_content octet_ber_content.
Proof. intros h d F. unfold octet_ber_content, octet_prim. quiet_tac. apply octet_segmented_quiet, F. Qed.
Lemma bitstring_prim_quiet h d : h_constructed h = false -> fits h d -> quiet (bitstring_prim h d).
Proof.
  intros K F. unfold bitstring_prim. rewrite (get_content_definite h d F (primitive_definite h d F K)). cbn [bind]. quiet_tac.
Qed.
Lemma bitstring_quiet : quiet_content bitstring_ber_content.
Proof.
  intros h d F. unfold bitstring_ber_content. destruct (h_constructed h) eqn:K; cbn [negb].
  - apply segmented_quiet; [exact bitstring_prim_quiet|exact F].
  - apply bitstring_prim_quiet; assumption.
Qed.
Lemma charset_quiet k i : quiet (test_valid_charset k i).
Proof. unfold test_valid_charset. destruct k; cbv zeta; quiet_tac. Qed.
Lemma string_quiet k : quiet_content (string_ber_content k).
Proof. intros h d F. unfold string_ber_content. quiet_tac; [apply octet_segmented_quiet, F|apply charset_quiet]. Qed.
Lemma wide_quiet : quiet_content wide_data.
Proof. intros h d F. unfold wide_data. quiet_tac. apply octet_segmented_quiet, F. Qed.
Lemma decimal_quiet a b : quiet (decode_decimal a b).
Proof. unfold decode_decimal. quiet_tac. Qed.
Lemma seconds_quiet r : quiet (time_seconds r).
Proof. unfold time_seconds. destruct r as [|a [|b r]]; [exact I|exact I|]. quiet_tac. apply decimal_quiet. Qed.
Lemma zone_quiet r : quiet (time_zone r).
Proof. unfold time_zone. destruct r as [|a [|b [|c [|d [|e [|f r]]]]]]; quiet_tac; apply decimal_quiet. Qed.
Lemma utc_quiet i : quiet (utc_from_bytes i).
Proof. unfold utc_from_bytes. quiet_tac; first [apply decimal_quiet|apply seconds_quiet|apply zone_quiet]. Qed.
Lemma frac_quiet i : forall n f, quiet (frac_loop n f i).
Proof. induction i as [|b i IH]; intros n f; cbn [frac_loop]; quiet_tac. apply IH. Qed.
Lemma fraction_quiet r : quiet (time_fraction r).
Proof. unfold time_fraction. quiet_tac. apply frac_quiet. Qed.
Lemma gen_quiet i : quiet (gen_from_bytes i).
Proof. unfold gen_from_bytes. cbv zeta. quiet_tac; first [apply decimal_quiet|apply seconds_quiet|apply fraction_quiet|apply zone_quiet]. Qed.

Ltac base_quiet :=
  intros h d F; cbn [base_codec ber_content der_content bool_codec null_codec string_codec int_codec uint_codec enum_codec integer_codec
    octet_codec slice_codec bitstring_codec oid_codec str_codec ostring_codec bmp_codec universal_codec raw_codec utc_codec gen_codec];
  unfold map_snd, enum_ber_content, enum_der_content, int_der_content, uint_der_content, integer_der_content, octet_der_content,
    bitstring_der_content, oid_der_content, oid_ber_content, string_der_content, str_ber_content, str_der_content, null_ber_content,
    boolean_der_content, slice_ber_content, bmp_ber_content, universal_ber_content, raw_content, utc_ber_content, utc_der_content,
    gen_ber_content, gen_der_content, gen_der_text; quiet_tac;
  first [apply int_quiet|apply uint_quiet|apply int_input_quiet|apply integer_quiet, F|apply boolean_quiet, F|apply octet_quiet, F
        |apply bitstring_quiet, F|apply string_quiet, F|apply wide_quiet, F|rewrite take_all; exact I|apply utc_quiet|apply gen_quiet].
Lemma base_ber_quiet {A} (b : base A) : quiet_content (ber_content (base_codec b)).
Proof. destruct b; base_quiet. Qed.
Lemma base_der_quiet {A} (b : base A) : quiet_content (der_content (base_codec b)).
Proof. destruct b; base_quiet. Qed.

Lemma collect_quiet {T} (p : bytes -> res (bytes * any)) (f : any -> res T) :
  (forall i r a, bytes_ok i -> p i = Ok (r, a) -> bytes_ok r /\ fits (any_header a) (any_data a)) ->
  (forall a, fits (any_header a) (any_data a) -> quiet (f a)) -> forall n i, bytes_ok i -> quiet (collect_loop p f n i).
Proof.
  intros Hp Hf. induction n as [|n IH]; intros i Hi; [exact I|]. cbn [collect_loop].
  destruct (blen i =? 0); [exact I|]. apply quiet_bind; [apply quiet_close|]. intros [rem a] E.
  assert (E' : p i = Ok (rem, a)) by (destruct (p i); cbn [close] in E; congruence).
  destruct (Hp _ _ _ Hi E') as [Hr Fa]. quiet_tac; [apply Hf, Fa|apply IH, Hr].
Qed.
Lemma any_ber_item i r a : bytes_ok i -> any_parse_ber i = Ok (r, a) -> bytes_ok r /\ fits (any_header a) (any_data a).
Proof.
  intros Hi E. split; [apply (any_ber_next _ _ _ Hi E)|]. rewrite any_parse_ber_eq in E by exact Hi. exact (ber_any_fits _ _ _ Hi E).
Qed.
Lemma any_der_item i r a : bytes_ok i -> any_parse_der i = Ok (r, a) -> bytes_ok r /\ fits (any_header a) (any_data a).
Proof.
  intros Hi E. split; [apply (any_der_next _ _ _ Hi E)|]. rewrite any_parse_der_eq in E by exact Hi. exact (der_any_fits _ _ _ Hi E).
Qed.
Lemma collect_ber_quiet {T} (P : parser T) i : quiet_content (ps_ber_content P) -> bytes_ok i -> quiet (collect_ber P i).
Proof.
  intros H Hi. apply collect_quiet; [exact any_ber_item| |exact Hi]. intros a Fa. unfold convert_item. quiet_tac. apply H, Fa.
Qed.
Lemma collect_der_quiet {T} (P : parser T) i : quiet_content (ps_der_content P) -> bytes_ok i -> quiet (collect_der P i).
Proof.
  intros H Hi. apply collect_quiet; [exact any_der_item| |exact Hi]. intros a Fa. unfold convert_item. quiet_tac. apply H, Fa.
Qed.

(** No explicit tag anywhere. *)
Fixpoint no_explicit {A} (t : ty A) : bool :=
  match t with
  | TBase b => true
  | TVec t => no_explicit t
  | TArray _ t => no_explicit t
  | TSetOf t => no_explicit t
  | TBTreeSet _ t => no_explicit t
  | TExplicit _ _ t => false
  | TImplicit _ _ t => no_explicit t
  end.
Lemma types_quiet {A} (t : ty A) : no_explicit t = true ->
  quiet_content (ps_ber_content (parser_of t)) /\ quiet_content (ps_der_content (parser_of t)).
Proof.
  induction t; cbn [no_explicit parser_of]; intros H; try specialize (IHt H) as [B D]; try discriminate.
  - split; [apply base_ber_quiet|apply base_der_quiet].
  - split; intros h d [Hd _]; cbn [vec_parser default_parser codec_parser ps_ber_content ps_der_content ber_content der_content];
      unfold vec_ber_content, vec_der_content; quiet_tac; [apply collect_ber_quiet|apply collect_der_quiet]; assumption.
  - split; intros h d [Hd _]; cbn [array_parser default_parser codec_parser ps_ber_content ps_der_content ber_content der_content];
      unfold array_content, vec_ber_content, vec_der_content; quiet_tac; [apply collect_ber_quiet|apply collect_der_quiet]; assumption.
  - split; intros h d [Hd _]; cbn [setof_parser default_parser codec_parser ps_ber_content ps_der_content ber_content der_content];
      unfold setof_ber_content, setof_der_content; quiet_tac; [apply collect_ber_quiet|apply collect_der_quiet]; assumption.
  - split; intros h d [Hd _]; cbn [btreeset_parser default_parser codec_parser ps_ber_content ps_der_content ber_content der_content];
      unfold btreeset_content, setof_ber_content, setof_der_content; quiet_tac; [apply collect_ber_quiet|apply collect_der_quiet]; assumption.
  - split; intros h d F; cbn [implicit_parser default_parser codec_parser ps_ber_content ps_der_content ber_content der_content];
      unfold implicit_content; quiet_tac; [apply B, F|apply D, F].
Qed.
Lemma parser_is_codec {A} (t : ty A) : exists p, parser_of t = codec_parser p.
Proof. destruct t; eexists; reflexivity. Qed.

(** Every type read by [from_ber], and by [parse_ber] and [parse_der] without explicit tags. *)
Theorem C71_complete_object_partial :
  (forall A (t : dty A), asks_for_object parse_ber_any (lg_from_ber (dlegacy_of t)))
  /\ (forall A (t : ty A), no_explicit t = true ->
        asks_for_object parse_ber_any (ps_parse_ber (parser_of t)) /\ asks_for_object parse_der_any (ps_parse_der (parser_of t))).
Proof.
  split.
  - intros A t i n Hi E. destruct (from_ber_is_blanket t i) as [Eb|Eb]; rewrite Eb in E; [|discriminate].
    revert i n Hi E Eb. intros i n Hi E _. revert i n Hi E.
    apply (map_asks parse_ber_any _ (lg_try_from (dlegacy_of t)) (fun _ => True)); [reflexivity|auto|]. intros a _. apply dtry_from_quiet.
  - intros A t H. destruct (types_quiet t H) as [B D]. destruct (parser_is_codec t) as [p E]. rewrite E in *.
    split; [exact (codec_ber_asks p B)|exact (codec_der_asks p D)].
Qed.
Print Assumptions C71_complete_object_partial.

(** ** [from_der] *)

Lemma base_check_quiet {A} (b : base A) a : quiet (check_constraints (base_codec b) a).
Proof.
  destruct b; cbn [base_codec check_constraints string_codec int_codec uint_codec bool_codec
    enum_codec integer_codec octet_codec slice_codec bitstring_codec oid_codec str_codec ostring_codec bmp_codec universal_codec
    raw_codec utc_codec gen_codec null_codec];
    unfold check_der_int, check_primitive, boolean_check, bitstring_check, oid_check, gen_der_text; quiet_tac;
    try apply int_input_quiet.
Qed.
(** The readers whose [from_der] hands on what the items of the content answer. *)
Definition from_der_closed {A} (t : dty A) : bool :=
  match t with DTy (TExplicit _ _ _) => false | DStruct _ _ => false | _ => true end.
Lemma der_asks {T} (p : bytes -> res (bytes * T)) (f : any -> res T) :
  (forall i, p i = let* (r, a) := parse_der_any i in let* x := f a in Ok (r, x)) -> (forall a, quiet (f a)) ->
  asks_for_object parse_der_any p.
Proof. intros E H. apply (map_asks parse_der_any p f (fun _ => True) E); auto. Qed.

Theorem C71_from_der_partial {A} (t : dty A) : from_der_closed t = true -> asks_for_object parse_der_any (lg_from_der (dlegacy_of t)).
Proof.
  destruct t as [A t|A t|A s fs|A k vs|ds|A t]; intros H; try discriminate H; try (intros i n _ E; discriminate E).
  - change (asks_for_object parse_der_any (lg_from_der (legacy_of t))).
    destruct t as [A b|A t|A n t|A t|A cmp t|A c n t|A c n t]; try discriminate H; try (intros i m _ E; discriminate E).
    + apply (der_asks _ (fun a => let* _ := check_constraints (base_codec b) a in try_from_any (base_codec b) a)).
      * intros i. cbn [legacy_of codec_legacy lg_from_der]. unfold from_der. destruct (parse_der_any i) as [[r a]|e|m|]; cbn [bind]; try reflexivity.
        destruct (check_constraints (base_codec b) a); reflexivity.
      * intros a. quiet_tac; [apply base_check_quiet|apply base_try_quiet].
    + apply (der_asks _ (fun a => let* _ := assert_tag (any_header a) TagSequence in seq_items (lg_from_der (legacy_of t)) (any_data a))).
      * intros i. cbn [legacy_of vec_legacy lg_from_der]. unfold vec_from_der. destruct (parse_der_any i) as [[r a]|e|m|]; cbn [bind]; try reflexivity.
        destruct (assert_tag (any_header a) TagSequence) as [[]|e|m|]; reflexivity.
      * intros a. quiet_tac. apply seq_items_quiet.
    + apply (der_asks _ (fun a => let* _ := assert_tag (any_header a) TagSet in seq_items (lg_from_der (legacy_of t)) (any_data a))).
      * intros i. cbn [legacy_of setof_legacy lg_from_der]. unfold setof_from_der. rewrite from_der_any_eq.
        destruct (parse_der_any i) as [[r a]|e|m|]; cbn [bind]; try reflexivity.
        destruct (assert_tag (any_header a) TagSet) as [[]|e|m|]; reflexivity.
      * intros a. quiet_tac. apply seq_items_quiet.
    + apply (der_asks _ (fun a => let* _ := assert_tag (any_header a) TagSet in let* _ := assert_constructed (any_header a) in
          let* v := seq_items (lg_from_der (legacy_of t)) (any_data a) in Ok (set_of_list cmp v))).
      * intros i. cbn [legacy_of btreeset_legacy lg_from_der]. unfold btreeset_from_der. rewrite from_der_any_eq.
        destruct (parse_der_any i) as [[r a]|e|m|]; cbn [bind]; try reflexivity.
        destruct (assert_tag (any_header a) TagSet) as [[]|e|m|]; cbn [bind]; try reflexivity.
        destruct (assert_constructed (any_header a)) as [[]|e|m|]; cbn [bind]; try reflexivity.
        destruct (seq_items _ (any_data a)); reflexivity.
      * intros a. quiet_tac. apply seq_items_quiet.
    + apply (der_asks _ (implicit_try_from c n (legacy_of t))).
      * intros i. cbn [legacy_of implicit_legacy lg_from_der]. unfold implicit_from_der. rewrite from_der_any_eq. reflexivity.
      * intros a. unfold implicit_try_from. quiet_tac. apply try_from_quiet.
  - apply (der_asks _ (fun a => let* _ := assert_tag (any_header a) TagSequence in seq_items (lg_from_der (dlegacy_of t)) (any_data a))).
    + intros i. change (lg_from_der (dlegacy_of (DVec t)) i) with (vec_from_der (dlegacy_of t) i). unfold vec_from_der.
      destruct (parse_der_any i) as [[r a]|e|m|]; cbn [bind]; try reflexivity.
      destruct (assert_tag (any_header a) TagSequence) as [[]|e|m|]; reflexivity.
    + intros a. quiet_tac. apply seq_items_quiet.
  - apply (der_asks _ (fun a => let* _ := assert_tag (any_header a) (lg_tag (dlegacy_of t)) in lg_try_from (dlegacy_of t) a)).
    + intros i. change (lg_from_der (dlegacy_of (DAlias t)) i) with (alias_from_der (dlegacy_of t) i). unfold alias_from_der.
      rewrite from_der_any_eq. destruct (parse_der_any i) as [[r a]|e|m|]; cbn [bind]; try reflexivity.
      destruct (assert_tag (any_header a) (lg_tag (dlegacy_of t))) as [[]|e|m|]; reflexivity.
    + intros a. quiet_tac. apply dtry_from_quiet.
Qed.
Print Assumptions C71_from_der_partial.

(** What follows for a complete object. *)
Corollary asks_complete {A B} (obj : bytes -> res (bytes * A)) (p : bytes -> res (bytes * B)) i v n :
  asks_for_object obj p -> bytes_ok i -> obj i = Ok v -> p i <> Incomplete n.
Proof. intros H Hi E En. rewrite (H _ _ Hi En) in E. discriminate. Qed.

(** A vector of tagged strings, and a cut and a complete object. *)
Example C71_case :
  let t := TVec (TImplicit ContextSpecific 1 (TBase BOctets)) in
  no_explicit t = true
  /\ ps_parse_ber (parser_of t) [0x30; 4; 0x81; 2; 65] = Incomplete 1 /\ parse_ber_any [0x30; 4; 0x81; 2; 65] = Incomplete 1
  /\ ps_parse_ber (parser_of t) [0x30; 3; 0x81; 2; 65] = Err (EIncomplete 1).
Proof. vm_compute. repeat split. Qed.

(** ** Explicit tags and derived structs: the answer stays [Incomplete] whatever follows *)

Lemma ber_stuck {T} (p : codec T) i r h r' d n :
  bytes_ok i -> header_parse_ber i = Ok (r, h) -> accept_tag p (h_tag h) = true -> ber_object_content h r MAX_RECURSION = Ok (r', d) ->
  ber_content p h d = Incomplete n -> forall x, bytes_ok x -> parse_ber p (i ++ x) = Incomplete n.
Proof.
  intros Hi Eh Ea Ec En x Hx. unfold parse_ber.
  pose proof (streaming_parse_header i Hi) as S. unfold header_parse_ber in *. rewrite Eh in S. destruct S as [(pre & ->) S].
  rewrite (S x Hx). cbn [bind]. rewrite Ea. apply bytes_ok_app in Hi as [_ Hr].
  pose proof (streaming_ber_object_content MAX_RECURSION h r Hr) as S2. cbv beta in S2. rewrite Ec in S2. destruct S2 as [_ S2].
  rewrite (S2 x Hx). cbn [bind]. rewrite En. reflexivity.
Qed.
Lemma der_stuck {T} (p : codec T) i r h r' l d n :
  bytes_ok i -> header_parse_der i = Ok (r, h) -> accept_tag p (h_tag h) = true -> h_length h = Definite l -> take l r = Ok (r', d) ->
  der_content p h d = Incomplete n -> forall x, bytes_ok x -> parse_der p (i ++ x) = Incomplete n.
Proof.
  intros Hi Eh Ea El Ec En x Hx. unfold parse_der.
  pose proof (streaming_header_parse_der i Hi) as S. rewrite Eh in S. destruct S as [(pre & ->) S].
  rewrite (S x Hx). cbn [bind]. rewrite El, Ea. apply bytes_ok_app in Hi as [_ Hr].
  pose proof (streaming_take l r Hr) as S2. rewrite Ec in S2. destruct S2 as [_ S2].
  rewrite (S2 x Hx). cbn [bind]. rewrite En. reflexivity.
Qed.
Lemma from_der_stuck {T} (p : bytes -> res (bytes * T)) (f : any -> res T) i r a n :
  (forall i, p i = let* (r, a) := parse_der_any i in let* x := f a in Ok (r, x)) ->
  bytes_ok i -> parse_der_any i = Ok (r, a) -> f a = Incomplete n -> forall x, bytes_ok x -> p (i ++ x) = Incomplete n.
Proof.
  intros E Hi Ea En x Hx. rewrite E. pose proof (streaming_parse_der_any i Hi) as S. rewrite Ea in S. destruct S as [_ S].
  rewrite (S x Hx). cbn [bind]. rewrite En. reflexivity.
Qed.

Definition stuck {T} (p : bytes -> res (bytes * T)) (i : bytes) (n : N) : Prop := forall x, bytes_ok x -> p (i ++ x) = Incomplete n.

(** [0] EXPLICIT INTEGER whose content is an integer of five octets without the octets. *)
Definition cut_explicit : ty Z := TExplicit ContextSpecific 0 (TBase (BUint 4)).
Theorem C71_explicit_refuted :
  exists i r a, bytes_ok i /\ parse_ber_any i = Ok (r, a) /\ parse_der_any i = Ok (r, a)
    /\ stuck (ps_parse_ber (parser_of cut_explicit)) i 5 /\ stuck (ps_parse_der (parser_of cut_explicit)) i 5
    /\ stuck (lg_from_der (legacy_of cut_explicit)) i 5.
Proof.
  assert (Hi : bytes_ok [0xa0; 2; 2; 5]) by (repeat constructor).
  exists [0xa0; 2; 2; 5], [], (mk_any (mk_header ContextSpecific true 0 (Definite 2) (Some [0xa0]) (Some [0xa0; 2])) [2; 5]).
  split; [exact Hi|]. split; [vm_compute; reflexivity|]. split; [vm_compute; reflexivity|]. split; [|split].
  - intros x Hx. eapply (ber_stuck _ _ _ _ _ _ _ Hi); [vm_compute; reflexivity|vm_compute; reflexivity|vm_compute; reflexivity|vm_compute; reflexivity|exact Hx].
  - intros x Hx. eapply (der_stuck _ _ _ _ _ _ _ _ Hi); [vm_compute; reflexivity|vm_compute; reflexivity|reflexivity|vm_compute; reflexivity|vm_compute; reflexivity|exact Hx].
  - intros x Hx. apply (from_der_stuck _ (fun a => let* _ := assert_tag (any_header a) 0 in let* _ := assert_constructed (any_header a) in
        let* _ := check_class (any_header a) ContextSpecific in let* (_, x) := lg_from_der (legacy_of (TBase (BUint 4))) (any_data a) in Ok x)
        _ [] (mk_any (mk_header ContextSpecific true 0 (Definite 2) (Some [0xa0]) (Some [0xa0; 2])) [2; 5])); [|exact Hi|vm_compute; reflexivity|vm_compute; reflexivity|exact Hx].
    intros i. cbn [legacy_of cut_explicit explicit_legacy lg_from_der]. unfold explicit_from_der. rewrite from_der_any_eq.
    destruct (parse_der_any i) as [[r a]|e|m|]; cbn [bind]; try reflexivity.
    destruct (assert_tag (any_header a) 0) as [[]|e|m|]; cbn [bind]; try reflexivity.
    destruct (assert_constructed (any_header a)) as [[]|e|m|]; cbn [bind]; try reflexivity.
    destruct (check_class (any_header a) ContextSpecific) as [[]|e|m|]; cbn [bind]; try reflexivity.
    destruct (codec_legacy _ _) as [? ? ? ? fd]. cbn [lg_from_der]. destruct (fd (any_data a)) as [[? ?]|e|m|]; reflexivity.
Qed.
Print Assumptions C71_explicit_refuted.

(** The same in a derived struct of one integer. *)
Definition cut_struct : dty (Z * unit) := DStruct false (FPlain (DTy (TBase (BUint 4))) FNil).
Theorem C71_struct_refuted :
  exists i r a, bytes_ok i /\ parse_ber_any i = Ok (r, a) /\ parse_der_any i = Ok (r, a)
    /\ stuck (ps_parse_ber (dparser_of cut_struct)) i 5 /\ stuck (ps_parse_der (dparser_of cut_struct)) i 5
    /\ stuck (lg_from_der (dlegacy_of cut_struct)) i 5.
Proof.
  assert (Hi : bytes_ok [0x30; 2; 2; 5]) by (repeat constructor).
  exists [0x30; 2; 2; 5], [], (mk_any (mk_header Universal true 16 (Definite 2) (Some [0x30]) (Some [0x30; 2])) [2; 5]).
  split; [exact Hi|]. split; [vm_compute; reflexivity|]. split; [vm_compute; reflexivity|]. split; [|split].
  - intros x Hx. eapply (ber_stuck _ _ _ _ _ _ _ Hi); [vm_compute; reflexivity|vm_compute; reflexivity|vm_compute; reflexivity|vm_compute; reflexivity|exact Hx].
  - intros x Hx. eapply (der_stuck _ _ _ _ _ _ _ _ Hi); [vm_compute; reflexivity|vm_compute; reflexivity|reflexivity|vm_compute; reflexivity|vm_compute; reflexivity|exact Hx].
  - intros x Hx. apply (from_der_stuck _ (fun a => let* _ := assert_tag (any_header a) 16 in let* (_, v) := lder_of (FPlain (DTy (TBase (BUint 4))) FNil) (any_data a) in Ok v)
        _ [] (mk_any (mk_header Universal true 16 (Definite 2) (Some [0x30]) (Some [0x30; 2])) [2; 5])); [|exact Hi|vm_compute; reflexivity|vm_compute; reflexivity|exact Hx].
    intros i. change (lg_from_der (dlegacy_of cut_struct) i) with (struct_from_der 16 (lder_of (FPlain (DTy (TBase (BUint 4))) FNil)) i).
    unfold struct_from_der. rewrite from_der_any_eq. generalize (lder_of (FPlain (DTy (TBase (BUint 4))) FNil)). intros f.
    destruct (parse_der_any i) as [[r a]|e|m|]; cbn [bind]; try reflexivity.
    destruct (assert_tag (any_header a) 16) as [[]|e|m|]; cbn [bind]; try reflexivity.
    destruct (f (any_data a)) as [[? ?]|e|m|]; reflexivity.
Qed.
Print Assumptions C71_struct_refuted.
