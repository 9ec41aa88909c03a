(** The primitive types read and write their syntax. *)
From Verif Require Import Base MHeader MEncode SHeader PArith PHeader PEncode MBer SBer PBer PIter PCodec.
From Verif Require Import MInt SInt PInt PropInt MSeg SSeg PSeg PBits PropSeg MOid POid PropOid MText SText PText PropText.
From Verif Require Import MTime STime PTime PropTime MCont SCont PCont SBase.

Record base_sound {T} (p : codec T) (w : T -> tober) (k : bool) (tag : N) (S : syntax T) : Prop := {
  bs_ident : forall v, sx_ident S v = (Universal, k, tag);
  bs_small : tag < 2 ^ 32;
  bs_tagged : forall v, sx_valid S v -> tb_tag (w v) = tag;
  bs_valid : forall v cb, sx_content S v cb -> sx_valid S v;
  bs_bytes : forall v cb, sx_content S v cb -> bytes_ok cb;
  bs_reads : forall v cb, sx_content S v cb -> blen cb < 2 ^ 24 ->
    ber_reads p Universal k tag cb v /\ der_reads p Universal k tag cb v;
  bs_writes : forall v cb, sx_content S v cb -> writes (w v) Universal k tag cb;
  bs_total : forall v, sx_valid S v -> exists cb, sx_content S v cb /\ tb_content_len (w v) = Definite (blen cb);
  bs_header_free : header_free (codec_parser p);
  bs_class_free : class_free (codec_legacy tag p)
}.

Section BaseSound.
  Context {T} (p : codec T) (w : T -> tober) (k : bool) (tag : N) (S : syntax T) (B : base_sound p w k tag S).

  Lemma base_syntax_ok : syntax_ok S.
  Proof. intros v cb c k' t E C. rewrite (bs_ident _ _ _ _ _ B) in E. injection E as <- <- <-. split; [apply B|apply (bs_bytes _ _ _ _ _ B _ _ C)]. Qed.

  Lemma base_parser_sound : parser_sound (codec_parser p) S.
  Proof.
    split; [apply codec_regular|]. intros v cb c k' t E C Hn. rewrite (bs_ident _ _ _ _ _ B) in E. injection E as <- <- <-.
    destruct (bs_reads _ _ _ _ _ B _ _ C Hn) as [[A R1] [_ R2]]. split; [exact A|]. intros rt rh h.
    split; [apply R1|apply R2].
  Qed.

  Lemma base_legacy_sound : legacy_sound (codec_legacy tag p) S.
  Proof.
    apply codec_legacy_sound; [apply base_syntax_ok|].
    intros v cb c k' t E C Hn. rewrite (bs_ident _ _ _ _ _ B) in E. injection E as <- <- <-.
    destruct (bs_reads _ _ _ _ _ B _ _ C Hn) as [_ [_ R2]]. split; [reflexivity|]. intros rt rh h. apply R2.
  Qed.

  Lemma base_writer_sound : writer_sound (same_writer Universal k tag w) S.
  Proof.
    split.
    - intros v cb c k' t E C Hn. rewrite (bs_ident _ _ _ _ _ B) in E. injection E as <- <- <-.
      pose proof (bs_writes _ _ _ _ _ B _ _ C) as W. pose proof (bs_tagged _ _ _ _ _ B v (bs_valid _ _ _ _ _ B _ _ C)) as Et.
      split; [exact W|]. split; [exact W|]. auto.
    - intros v n V E Hn. destruct (bs_total _ _ _ _ _ B v V) as (cb & C & L). exists cb. split; [exact C|].
      cbn [wr_der same_writer] in E. rewrite E in L. injection L as L. symmetry. exact L.
  Qed.

  Lemma base_form_sound : form_sound (same_writer Universal k tag w) S.
  Proof. intros v c k' t E. rewrite (bs_ident _ _ _ _ _ B) in E. injection E as _ <- _. reflexivity. Qed.
End BaseSound.

(** ** The content parsers do not look at class and tag *)

Lemma assert_primitive_free h h' : h_constructed h = h_constructed h' -> assert_primitive h = assert_primitive h'.
Proof. unfold assert_primitive. intros ->. reflexivity. Qed.
Lemma assert_constructed_free h h' : h_constructed h = h_constructed h' -> assert_constructed h = assert_constructed h'.
Proof. unfold assert_constructed. intros ->. reflexivity. Qed.
Lemma der_get_content_free h h' d : h_length h = h_length h' -> der_get_content h d = der_get_content h' d.
Proof. unfold der_get_content. intros ->. reflexivity. Qed.

Lemma ber_get_content_free h h' d :
  h_constructed h = h_constructed h' -> h_length h = h_length h' -> ber_get_content h d = ber_get_content h' d.
Proof.
  intros E1 E2. unfold ber_get_content, ber_object_content, MAX_RECURSION. rewrite E2. cbn [skip_content].
  rewrite E2. destruct (h_length h') as [l|].
  - destruct (N.eqb_spec l 0) as [->|]; cbn [andb]; [|reflexivity].
    assert (Et : take 0 d = Ok (d, [])) by (unfold take; destruct (N.leb_spec 0 (blen d)); [reflexivity|lia]).
    destruct (h_tag h =? TagEndOfContent), (h_tag h' =? TagEndOfContent); rewrite ?Et; reflexivity.
  - rewrite (assert_constructed_free h h' E1). reflexivity.
Qed.

Lemma segmented_free {T} accept dflt append (prim : header -> bytes -> res (bytes * T)) n h h' d :
  (forall x, prim h x = prim h' x) ->
  h_constructed h = h_constructed h' -> h_length h = h_length h' ->
  parse_ber_segmented accept dflt append prim n h d = parse_ber_segmented accept dflt append prim n h' d.
Proof.
  intros Hp E1 E2. destruct n as [|n]; [reflexivity|]. cbn [parse_ber_segmented].
  rewrite E1, E2, (ber_get_content_free h h' d E1 E2). destruct (blen d =? 0); [reflexivity|].
  destruct (h_constructed h'); [reflexivity|].
  destruct (ber_get_content h' d) as [[rem data]| | |]; cbn [bind]; [rewrite Hp|..]; reflexivity.
Qed.

Lemma octet_segmented_free h h' d :
  h_constructed h = h_constructed h' -> h_length h = h_length h' -> octet_segmented h d = octet_segmented h' d.
Proof. intros. apply segmented_free; [reflexivity|assumption|assumption]. Qed.

Lemma wide_data_free h h' d :
  h_constructed h = h_constructed h' -> h_length h = h_length h' -> wide_data h d = wide_data h' d.
Proof. intros E1 E2. unfold wide_data. rewrite E1, (octet_segmented_free h h' d E1 E2). reflexivity. Qed.

Lemma bitstring_prim_free h h' d :
  h_constructed h = h_constructed h' -> h_length h = h_length h' -> bitstring_prim h d = bitstring_prim h' d.
Proof. intros E1 E2. unfold bitstring_prim. rewrite (ber_get_content_free h h' d E1 E2). reflexivity. Qed.

(** A codec whose [TryFrom] is the default one. *)
Lemma default_class_free {T} tag (p : codec T) :
  header_free (codec_parser p) -> (forall a, try_from_any p a = default_try_from (accept_tag p) (ber_content p) a) ->
  (forall h h' d, h_constructed h = h_constructed h' -> h_tag h = h_tag h' -> h_length h = h_length h' ->
     check_constraints p (mk_any h d) = check_constraints p (mk_any h' d)) ->
  class_free (codec_legacy tag p).
Proof.
  intros HF HT HC h h' d E1 E2 E3. cbn [codec_legacy lg_try_from lg_check]. split; [|apply HC; assumption].
  rewrite !HT. unfold default_try_from. cbn [any_header any_data]. rewrite E2.
  destruct (HF h h' d E1 E3) as [F _]. cbn [codec_parser ps_ber_content] in F. rewrite F. reflexivity.
Qed.

Ltac free h h' d E1 E2 :=
  rewrite ?(assert_primitive_free h h' E1), ?(assert_constructed_free h h' E1), ?(der_get_content_free h h' d E2),
    ?(octet_segmented_free h h' d E1 E2), ?(wide_data_free h h' d E1 E2), ?(bitstring_prim_free h h' d E1 E2), ?E1, ?E2;
  try reflexivity.

(** ** The types *)

Lemma bool_base : base_sound bool_codec tober_bool false 1 bool_syntax.
Proof.
  assert (HF : header_free (codec_parser bool_codec)).
  { intros h h' d E1 E2. cbn [codec_parser ps_ber_content ps_der_content ber_content der_content bool_codec].
    unfold boolean_der_content, boolean_ber_content. free h h' d E1 E2. split; reflexivity. }
  constructor; try reflexivity.
  - intros v cb [_ ->]. destruct v; repeat constructor.
  - intros v cb [_ ->] _. apply bool_reads.
  - intros v cb [_ ->]. repeat split.
  - intros v _. eexists. split; [split; [exact I|reflexivity]|reflexivity].
  - exact HF.
  - apply default_class_free; [exact HF|reflexivity|]. intros h h' d E1 E2 E3.
    cbn [check_constraints bool_codec]. unfold boolean_check. cbn [any_header any_data]. free h h' d E1 E3.
Qed.

Lemma null_base : base_sound null_codec (fun _ => tober_null) false 5 null_syntax.
Proof.
  assert (HF : header_free (codec_parser null_codec)).
  { intros h h' d E1 E2. cbn [codec_parser ps_ber_content ps_der_content ber_content der_content null_codec].
    unfold null_ber_content. free h h' d E1 E2. split; reflexivity. }
  constructor; try reflexivity.
  - intros v cb [_ ->]. constructor.
  - intros [] cb [_ ->] _. split; (split; [reflexivity|]); intros rt rh h; cbn; repeat split; eexists; reflexivity.
  - intros v cb [_ ->]. repeat split.
  - intros v _. eexists. split; [split; [exact I|reflexivity]|reflexivity].
  - exact HF.
  - apply default_class_free; [exact HF|reflexivity|]. reflexivity.
Qed.

Lemma shortest_form_unique v a b : shortest_form v a -> shortest_form v b -> a = b.
Proof. intros (A1 & A2 & A3) (B1 & B2 & B3). apply shortest_unique; try assumption. congruence. Qed.

Lemma check_der_int_free h h' d :
  h_constructed h = h_constructed h' -> h_length h = h_length h' -> check_der_int (mk_any h d) = check_der_int (mk_any h' d).
Proof. intros E1 E2. unfold check_der_int. cbn [any_header any_data]. free h h' d E1 E2. Qed.

Lemma int_base w : (1 <= w <= 16)%nat -> base_sound (int_codec w) (tober_int w) false 2 (int_syntax w).
Proof.
  intros [Hw Hw2].
  assert (HF : header_free (codec_parser (int_codec w))).
  { intros h h' d E1 E2. cbn [codec_parser ps_ber_content ps_der_content ber_content der_content int_codec].
    unfold int_der_content, int_ber_content. free h h' d E1 E2. split; reflexivity. }
  constructor; try reflexivity.
  - intros v cb [V _]; exact V.
  - intros v cb [_ (H & _)]. exact H.
  - intros v cb [V (H1 & H2 & H3)] _. apply der_reads_int; auto.
  - intros v cb [V H]. destruct (integer_from_int_ok w v Hw V) as (d & E & Hs & Ht & Hd & Hl).
    rewrite (shortest_form_unique v cb d H) by (split; auto). apply writes_integer. exact E.
  - intros v V. destruct (integer_from_int_ok w v Hw V) as (d & E & Hs & Ht & Hd & Hl).
    exists d. split; [split; [exact V|split; auto]|]. cbn [tober_int tb_content_len]. rewrite E. reflexivity.
  - exact HF.
  - apply default_class_free; [exact HF|reflexivity|]. intros. apply check_der_int_free; assumption.
Qed.

Lemma uint_base w : (1 <= w <= 16)%nat -> base_sound (uint_codec w) (tober_uint w) false 2 (uint_syntax w).
Proof.
  intros [Hw Hw2].
  assert (HF : header_free (codec_parser (uint_codec w))).
  { intros h h' d E1 E2. cbn [codec_parser ps_ber_content ps_der_content ber_content der_content uint_codec].
    unfold uint_der_content, uint_ber_content. free h h' d E1 E2. split; reflexivity. }
  constructor; try reflexivity.
  - intros v cb [V _]; exact V.
  - intros v cb [_ (H & _)]. exact H.
  - intros v cb [V (H1 & H2 & H3)] _. apply der_reads_uint; auto.
  - intros v cb [V H]. destruct (integer_from_uint_ok w v Hw V) as (d & E & Hs & Ht & Hd & Hl).
    rewrite (shortest_form_unique v cb d H) by (split; auto). apply writes_integer. exact E.
  - intros v V. destruct (integer_from_uint_ok w v Hw V) as (d & E & Hs & Ht & Hd & Hl).
    exists d. split; [split; [exact V|split; auto]|]. cbn [tober_uint tb_content_len]. rewrite E. reflexivity.
  - exact HF.
  - apply default_class_free; [exact HF|reflexivity|]. intros. apply check_der_int_free; assumption.
Qed.

Lemma enum_reads d v :
  bytes_ok d -> shortest d -> v = twos d -> in_unsigned 4 v ->
  ber_reads enum_codec Universal false 10 d v /\ der_reads enum_codec Universal false 10 d v.
Proof.
  intros Hd Hs -> Hv.
  assert (B : forall h, h_constructed h = false -> uint_ber_content 4 h d = Ok ([], twos d)).
  { intros h Hh. apply uint_ber_content_ok; [lia|exact Hd|]. auto. }
  assert (D : forall h, h_constructed h = false -> uint_der_content 4 h d = Ok ([], twos d)).
  { intros h Hh. apply uint_der_content_ok; [lia|exact Hd|]. auto 6. }
  assert (F : forall rt rh, try_from_any enum_codec
     (mk_any (mk_header Universal false 10 (Definite (blen d)) rt rh) d) = Ok (twos d)).
  { intros rt rh. apply default_try_from_ok. split; [reflexivity|]. exists []. apply B. reflexivity. }
  split; (split; [reflexivity|]); intros rt rh h.
  - split; [exists []; apply B; reflexivity|apply F].
  - split; [exists []; apply D; reflexivity|]. split; [apply F|reflexivity].
Qed.

Lemma enum_base : base_sound enum_codec tober_enum false 10 enum_syntax.
Proof.
  assert (HF : header_free (codec_parser enum_codec)).
  { intros h h' d E1 E2. cbn [codec_parser ps_ber_content ps_der_content ber_content der_content enum_codec].
    unfold enum_ber_content, enum_der_content, uint_der_content, uint_ber_content. free h h' d E1 E2. split; reflexivity. }
  constructor; try reflexivity.
  - intros v cb [V _]; exact V.
  - intros v cb [_ (H & _)]. exact H.
  - intros v cb [V (H1 & H2 & H3)] _. apply enum_reads; auto.
  - intros v cb [V H]. destruct (integer_from_uint_ok 4 v ltac:(lia) V) as (d & E & Hs & Ht & Hd & Hl).
    rewrite (shortest_form_unique v cb d H) by (split; auto). apply writes_integer. exact E.
  - intros v V. destruct (integer_from_uint_ok 4 v ltac:(lia) V) as (d & E & Hs & Ht & Hd & Hl).
    exists d. split; [split; [exact V|split; auto]|]. cbn [tober_enum tb_content_len]. rewrite E. reflexivity.
  - exact HF.
  - apply default_class_free; [exact HF|reflexivity|]. intros h h' d E1 E2 E3.
    cbn [check_constraints enum_codec any_header]. rewrite E3. reflexivity.
Qed.

Lemma integer_base : base_sound integer_codec tober_integer false 2 integer_syntax.
Proof.
  assert (HF : header_free (codec_parser integer_codec)).
  { intros h h' d E1 E2. cbn [codec_parser ps_ber_content ps_der_content ber_content der_content integer_codec].
    unfold integer_der_content, integer_ber_content. free h h' d E1 E2. split; reflexivity. }
  constructor; try reflexivity.
  - intros v cb [V _]; exact V.
  - intros v cb [[V _] ->]. exact V.
  - intros v cb [[Hd Hs] ->] _. pose proof Hs as [Hne _].
    assert (B : forall h, h_constructed h = false -> h_length h = Definite (blen v) -> integer_ber_content h v = Ok ([], v)).
    { intros h Hh Hl. apply integer_ber_content_ok. rewrite app_nil_r. auto. }
    assert (F : forall rt rh, try_from_any integer_codec
       (mk_any (mk_header Universal false 2 (Definite (blen v)) rt rh) v) = Ok v).
    { intros rt rh. apply default_try_from_ok. split; [reflexivity|]. exists []. apply B; reflexivity. }
    assert (K : forall rt rh, check_der_int (mk_any (mk_header Universal false 2 (Definite (blen v)) rt rh) v) = Ok tt).
    { intros rt rh. apply check_der_int_ok; [exact Hd|]. split; [reflexivity|]. split; [discriminate|exact Hs]. }
    assert (K2 : check_der_int_input v = Ok tt).
    { specialize (K None None). unfold check_der_int in K. cbn [any_header any_data] in K.
      unfold assert_primitive in K. cbn [h_constructed bind] in K. apply bind_ok in K as ([] & _ & K). exact K. }
    split; (split; [reflexivity|]); intros rt rh h.
    + split; [exists []; apply B; reflexivity|apply F].
    + split; [|split; [apply F|apply K]]. exists []. cbn [der_content integer_codec]. unfold integer_der_content.
      rewrite K2. cbn [bind]. apply B; reflexivity.
  - intros v cb [_ ->]. repeat split.
  - intros v V. exists v. split; [split; [exact V|reflexivity]|reflexivity].
  - exact HF.
  - apply default_class_free; [exact HF|reflexivity|]. intros. apply check_der_int_free; assumption.
Qed.

Lemma check_primitive_free h h' d : h_constructed h = h_constructed h' -> check_primitive (mk_any h d) = check_primitive (mk_any h' d).
Proof. apply assert_primitive_free. Qed.

Lemma octet_base : base_sound octet_codec tober_octet false 4 octet_syntax.
Proof.
  assert (HF : header_free (codec_parser octet_codec)).
  { intros h h' d E1 E2. cbn [codec_parser ps_ber_content ps_der_content ber_content der_content octet_codec].
    unfold octet_der_content, octet_ber_content. free h h' d E1 E2. split; reflexivity. }
  constructor; try reflexivity.
  - intros v cb [V _]; exact V.
  - intros v cb [V ->]. exact V.
  - intros v cb [V ->] _. apply octet_reads.
  - intros v cb [_ ->]. repeat split.
  - intros v V. exists v. split; [split; [exact V|reflexivity]|reflexivity].
  - exact HF.
  - apply default_class_free; [exact HF|reflexivity|]. intros. apply check_primitive_free; assumption.
Qed.

Lemma slice_base : base_sound slice_codec tober_octet false 4 octet_syntax.
Proof.
  assert (HF : header_free (codec_parser slice_codec)).
  { intros h h' d E1 E2. cbn [codec_parser ps_ber_content ps_der_content ber_content der_content slice_codec].
    unfold slice_ber_content. free h h' d E1 E2. split; reflexivity. }
  constructor; try reflexivity.
  - intros v cb [V _]; exact V.
  - intros v cb [V ->]. exact V.
  - intros v cb [V ->] _. apply octet_reads.
  - intros v cb [_ ->]. repeat split.
  - intros v V. exists v. split; [split; [exact V|reflexivity]|reflexivity].
  - exact HF.
  - apply default_class_free; [exact HF|reflexivity|]. intros. apply check_primitive_free; assumption.
Qed.

Lemma raw_base tag : tag < 2 ^ 32 -> base_sound (raw_codec tag) (raw_tober tag) true tag (raw_syntax tag).
Proof.
  intros Ht.
  constructor; try reflexivity.
  - exact Ht.
  - intros v cb [V _]; exact V.
  - intros v cb [V ->]. exact V.
  - intros v cb [V ->] _.
    assert (C : forall rt rh, raw_content (mk_header Universal true tag (Definite (blen v)) rt rh) v = Ok ([], v)).
    { intros rt rh. unfold raw_content. cbn [assert_constructed h_constructed bind]. apply take_all. }
    assert (F : forall rt rh, raw_try_from tag (mk_any (mk_header Universal true tag (Definite (blen v)) rt rh) v) = Ok v).
    { intros rt rh. unfold raw_try_from. cbn [any_header any_data]. rewrite assert_tag_same. reflexivity. }
    split; (split; [apply N.eqb_refl|]); intros rt rh h; (split; [exists []; apply C|]); [apply F|split; [apply F|reflexivity]].
  - intros v cb [_ ->]. repeat split.
  - intros v V. exists v. split; [split; [exact V|reflexivity]|reflexivity].
  - intros h h' d E1 E2. cbn [codec_parser ps_ber_content ps_der_content ber_content der_content raw_codec].
    unfold raw_content. free h h' d E1 E2. split; reflexivity.
  - intros h h' d E1 E2 E3. cbn [codec_legacy lg_try_from lg_check try_from_any check_constraints raw_codec].
    unfold raw_try_from. cbn [any_header any_data]. split; [|reflexivity].
    rewrite (assert_constructed_free h h' E1). unfold assert_tag. rewrite E2. reflexivity.
Qed.

(** BIT STRING *)

Lemma canonical_layout b bits cb :
  canonical_bits b -> holds_bits b bits -> padded_bits bits cb ->
  length (bs_raw b) = elts (bs_len b) /\ bs_bits b = bits
  /\ cb = (8 * blen (bs_raw b) - N.of_nat (bs_len b)) :: bs_raw b.
Proof.
  intros (H0 & Hok & bits' & pad' & B' & L' & P' & F') (pre & post & B & Lp & L) (u & bs & pad & -> & Hbs & Bb & Lu & Hu & Fp).
  apply bytes_bits_iff in B, B', Bb. rewrite H0 in Lp. destruct pre; [|discriminate]. cbn [app] in B.
  assert (E : bits' ++ pad' = bits ++ post) by congruence.
  apply app_inj_pre in E as [-> ->]; [|congruence].
  assert (L1 := f_equal (@length bool) B). rewrite bits_of_length, app_length in L1.
  assert (L2 := f_equal (@length bool) Bb). rewrite bits_of_length, app_length in L2.
  assert (Lraw : length (bs_raw b) = elts (bs_len b)) by (unfold elts; lia).
  split; [exact Lraw|].
  assert (EP : pad = post).
  { assert (length pad = length post) by (unfold blen in Lu; lia).
    assert (X : forall l, Forall (fun b => b = false) l -> l = repeat false (length l)).
    { induction 1 as [|x l -> _ IH]; [reflexivity|]. cbn. f_equal. exact IH. }
    rewrite (X pad Fp), (X post F'). congruence. }
  subst post.
  assert (bs = bs_raw b) as -> by (apply bits_of_inj; [exact Hbs|exact Hok|congruence]).
  split.
  - unfold bs_bits. rewrite H0. cbn [skipn]. rewrite <- B, <- L. rewrite firstn_app, Nat.sub_diag. cbn [firstn].
    rewrite app_nil_r. apply firstn_all.
  - f_equal. unfold blen in *. lia.
Qed.

Lemma bitstring_base : base_sound bitstring_codec tober_bitstring false 3 bitstring_syntax.
Proof.
  assert (HF : header_free (codec_parser bitstring_codec)).
  { intros h h' d E1 E2. cbn [codec_parser ps_ber_content ps_der_content ber_content der_content bitstring_codec].
    unfold bitstring_der_content, bitstring_ber_content.
    rewrite (segmented_free _ _ _ _ _ h h' d (fun x => bitstring_prim_free h h' x E1 E2) E1 E2). free h h' d E1 E2. split; reflexivity. }
  assert (OK : forall v cb, sx_content bitstring_syntax v cb -> bytes_ok cb).
  { intros v cb [V (bits & H1 & (u & bs & pad & -> & Hbs & _ & _ & Hu & _))]. constructor; [lia|exact Hbs]. }
  constructor; try reflexivity.
  - intros v cb [V _]; exact V.
  - exact OK.
  - intros v cb C _. pose proof (OK v cb C) as Hcb. destruct C as [V (bits & H1 & H2)].
    destruct (canonical_layout v bits cb V H1 H2) as (Hw & Eb & Ec).
    assert (Hraw : bytes_ok (bs_raw v)) by apply V. assert (H0 : bs_head v = 0%nat) by apply V.
    set (u := 8 * blen (bs_raw v) - N.of_nat (bs_len v)) in *.
    assert (L : blen (bs_raw v) = (N.of_nat (bs_len v) + 7) / 8) by (unfold blen; rewrite Hw; apply elts_N).
    assert (Hu : u <= 7) by (unfold u; lia).
    assert (Et : mk_bits 0 (bs_raw v) (8 * length (bs_raw v) - N.to_nat u) = v).
    { destruct v as [hd raw len]. cbn [bs_head bs_raw bs_len] in *. subst hd. f_equal. unfold u. unfold blen in *. lia. }
    assert (P : forall rt rh, bitstring_ber_content (mk_header Universal false 3 (Definite (blen cb)) rt rh) cb = Ok ([], v)).
    { intros rt rh. apply bitstring_content_prim; [exact Hcb|reflexivity|reflexivity|]. exists u, (bs_raw v).
      split; [exact Ec|]. split; [exact Hu|]. split; [unfold u; lia|]. split; [reflexivity|]. symmetry. exact Et. }
    assert (F : forall rt rh, try_from_any bitstring_codec (mk_any (mk_header Universal false 3 (Definite (blen cb)) rt rh) cb) = Ok v).
    { intros rt rh. apply default_try_from_ok. split; [reflexivity|]. exists []. apply P. }
    assert (DV : der_bits_value cb (bs_bits v)).
    { rewrite Eb. destruct H2 as (u' & bs & pad & A1 & _ & A2 & A3 & A4 & A5). exists u', bs, pad. auto. }
    apply der_bits_value_iff in DV as [DV Z].
    split; (split; [reflexivity|]); intros rt rh h; (split; [exists []; apply P|]); [apply F|split; [apply F|]].
    apply (bitstring_check_ok h cb _ Hcb eq_refl DV). split; [reflexivity|exact Z].
  - intros v cb [V (bits & H1 & H2)]. destruct (canonical_layout v bits cb V H1 H2) as (Hw & _ & ->).
    apply writes_bitstring. exact Hw.
  - intros v V. destruct V as (H0 & Hok & bits & pad & B & L & Hp & F) eqn:EV.
    assert (H1 : holds_bits v bits). { exists [], pad. split; [exact B|]. split; [symmetry; exact H0|exact L]. }
    assert (H2 : padded_bits bits (blen pad :: bs_raw v)).
    { exists (blen pad), (bs_raw v), pad. unfold blen. repeat split; try assumption. lia. }
    exists (blen pad :: bs_raw v). split; [split; [exact V|exists bits; auto]|].
    destruct (canonical_layout v bits _ V H1 H2) as (Hw & _ & _). rewrite blen_cons.
    cbn [tober_bitstring tb_content_len]. unfold blen. rewrite Hw, elts_N. reflexivity.
  - exact HF.
  - apply default_class_free; [exact HF|reflexivity|]. intros h h' d E1 E2 E3.
    cbn [check_constraints bitstring_codec]. unfold bitstring_check. cbn [any_header any_data]. free h h' d E1 E3.
Qed.

Lemma oid_base : base_sound oid_codec tober_oid false 6 oid_syntax.
Proof.
  assert (HF : header_free (codec_parser oid_codec)).
  { intros h h' d E1 E2. cbn [codec_parser ps_ber_content ps_der_content ber_content der_content oid_codec].
    unfold oid_der_content, oid_ber_content. free h h' d E1 E2. split; reflexivity. }
  constructor; try reflexivity.
  - intros v (H & _). cbn [tober_oid tb_tag]. unfold oid_tag. rewrite H. reflexivity.
  - intros v cb [V _]; exact V.
  - intros v cb [(_ & _ & V) ->]. exact V.
  - intros [d rel] cb [(Hr & Hne & Hok) ->] _. cbn [oid_relative oid_asn1] in *. subst rel.
    assert (B : forall h, h_constructed h = false -> oid_ber_content h d = Ok ([], mk_oid d false)).
    { intros h K. apply oid_content_ok. auto. }
    assert (F : forall rt rh, try_from_any oid_codec
       (mk_any (mk_header Universal false 6 (Definite (blen d)) rt rh) d) = Ok (mk_oid d false)).
    { intros rt rh. apply default_try_from_ok. split; [reflexivity|]. exists []. apply B; reflexivity. }
    split; (split; [reflexivity|]); intros rt rh h; (split; [exists []; apply B; reflexivity|]); [apply F|split; [apply F|reflexivity]].
  - intros v cb [(H & _) ->]. assert (W := writes_oid v). unfold oid_tag in W. rewrite H in W. exact W.
  - intros v V. exists (oid_asn1 v). split; [split; [exact V|reflexivity]|reflexivity].
  - exact HF.
  - apply default_class_free; [exact HF|reflexivity|]. intros h h' d E1 E2 E3.
    cbn [check_constraints oid_codec]. unfold oid_check. cbn [any_header any_data]. free h h' d E1 E3.
Qed.

(** Character strings.  [kind_alphabet]: the repertoire of UTF8String is every text. *)
Definition kind_alphabet (k : string_kind) (c : N) : Prop :=
  match k with Utf8 => scalar c | _ => alphabet k c end.

Lemma kind_text k s : Forall (kind_alphabet k) s -> is_text s.
Proof.
  intros F. eapply Forall_impl; [|exact F]. intros c Hc.
  assert (D : scalar c \/ alphabet k c) by (destruct k; auto). destruct D as [D|D]; [exact D|].
  apply alphabet_127 in D. unfold scalar. lia.
Qed.

Lemma utf8_bytes v cb : utf8 v cb -> bytes_ok cb.
Proof. intros H. apply utf8_ok in H. apply H. Qed.

Lemma string_base k : base_sound (string_codec k) (tober_string k) false (universal_string_tag k)
                        (text_syntax (universal_string_tag k) (kind_alphabet k)).
Proof.
  assert (HF : header_free (codec_parser (string_codec k))).
  { intros h h' d E1 E2. cbn [codec_parser ps_ber_content ps_der_content ber_content der_content string_codec].
    unfold string_der_content, string_ber_content. free h h' d E1 E2. split; reflexivity. }
  constructor; try reflexivity.
  - destruct k; reflexivity.
  - intros v cb [V _]; exact V.
  - intros v cb [_ U]. eapply utf8_bytes; exact U.
  - intros v cb [V U] _. pose proof (utf8_bytes _ _ U) as Hcb.
    assert (B : test_valid_charset k cb = Ok tt /\ from_utf8 cb = Some v).
    { assert (D : k = Utf8 \/ k <> Utf8) by (destruct k; auto; right; discriminate). destruct D as [-> | Hk]; [apply utf8_charset; exact U|].
      apply charset_iff; [exact Hk|exact Hcb|].
      assert (V' : Forall (alphabet k) v) by (destruct k; congruence || exact V).
      assert (F : Forall (fun c => c < 128) v) by (eapply Forall_impl; [|exact V']; apply alphabet_127).
      apply utf8_str_bytes in U as [_ ->]. rewrite (ascii_str_bytes v F). split; [reflexivity|].
      eapply Forall_impl; [|exact V']. intros c Hc. left. exact Hc. }
    destruct B as [B1 B2].
    assert (P : forall rt rh, string_ber_content k (mk_header Universal false (universal_string_tag k) (Definite (blen cb)) rt rh) cb = Ok ([], v)).
    { intros rt rh. unfold string_ber_content. cbn [h_constructed negb bind]. rewrite B1, B2. reflexivity. }
    assert (F : forall rt rh, try_from_any (string_codec k)
       (mk_any (mk_header Universal false (universal_string_tag k) (Definite (blen cb)) rt rh) cb) = Ok v).
    { intros rt rh. apply default_try_from_ok. split; [|exists []; apply P]. destruct k; reflexivity. }
    split; (split; [destruct k; reflexivity|]);
      intros rt rh h; (split; [exists []; apply P|]); [apply F|split; [apply F|reflexivity]].
  - intros v cb [V U]. apply utf8_str_bytes in U as [_ ->]. unfold tober_string. rewrite kind_tag_eq. repeat split.
  - intros v V. exists (str_bytes v). split; [split; [exact V|apply str_bytes_utf8; exact (kind_text k v V)]|reflexivity].
  - exact HF.
  - apply default_class_free; [exact HF|reflexivity|]. intros. apply check_primitive_free; assumption.
Qed.

Lemma from_utf8_of v cb : utf8 v cb -> from_utf8 cb = Some v.
Proof. apply from_utf8_iff. Qed.

Lemma str_base : base_sound str_codec tober_str false 12 (text_syntax 12 scalar).
Proof.
  assert (HF : header_free (codec_parser str_codec)).
  { intros h h' d E1 E2. cbn [codec_parser ps_ber_content ps_der_content ber_content der_content str_codec].
    unfold str_der_content, str_ber_content. free h h' d E1 E2. split; reflexivity. }
  constructor; try reflexivity.
  - intros v cb [V _]; exact V.
  - intros v cb [_ U]. eapply utf8_bytes; exact U.
  - intros v cb [V U] _. apply from_utf8_of in U.
    assert (P : forall rt rh, str_ber_content (mk_header Universal false 12 (Definite (blen cb)) rt rh) cb = Ok ([], v)).
    { intros rt rh. unfold str_ber_content. cbn [h_constructed]. rewrite U. reflexivity. }
    assert (P2 : forall rt rh, str_der_content (mk_header Universal false 12 (Definite (blen cb)) rt rh) cb = Ok ([], v)).
    { intros rt rh. unfold str_der_content, assert_primitive. cbn [h_constructed bind]. rewrite U. reflexivity. }
    assert (F : forall rt rh, try_from_any str_codec
       (mk_any (mk_header Universal false 12 (Definite (blen cb)) rt rh) cb) = Ok v).
    { intros rt rh. apply default_try_from_ok. split; [reflexivity|exists []; apply P]. }
    split; (split; [reflexivity|]); intros rt rh h; (split; [exists []; first [apply P|apply P2]|]); [apply F|split; [apply F|reflexivity]].
  - intros v cb [V U]. apply utf8_str_bytes in U as [_ ->]. repeat split.
  - intros v V. exists (str_bytes v). split; [split; [exact V|apply str_bytes_utf8; exact V]|reflexivity].
  - exact HF.
  - apply default_class_free; [exact HF|reflexivity|]. intros. apply check_primitive_free; assumption.
Qed.

Lemma ostring_base : base_sound ostring_codec tober_str false 12 (text_syntax 12 scalar).
Proof.
  assert (HF : header_free (codec_parser ostring_codec)).
  { intros h h' d E1 E2. cbn [codec_parser ps_ber_content ps_der_content ber_content der_content ostring_codec].
    unfold str_der_content, string_ber_content. free h h' d E1 E2. split; reflexivity. }
  constructor; try reflexivity.
  - intros v cb [V _]; exact V.
  - intros v cb [_ U]. eapply utf8_bytes; exact U.
  - intros v cb [V U] _. pose proof (proj2 (utf8_charset cb v) U) as [U1 U2].
    assert (P : forall rt rh, string_ber_content Utf8 (mk_header Universal false 12 (Definite (blen cb)) rt rh) cb = Ok ([], v)).
    { intros rt rh. unfold string_ber_content. cbn [h_constructed negb bind]. rewrite U1, U2. reflexivity. }
    assert (P2 : forall rt rh, str_der_content (mk_header Universal false 12 (Definite (blen cb)) rt rh) cb = Ok ([], v)).
    { intros rt rh. unfold str_der_content, assert_primitive. cbn [h_constructed bind]. rewrite U2. reflexivity. }
    assert (F : forall rt rh, try_from_any ostring_codec
       (mk_any (mk_header Universal false 12 (Definite (blen cb)) rt rh) cb) = Ok v).
    { intros rt rh. apply default_try_from_ok. split; [reflexivity|exists []; apply P]. }
    split; (split; [reflexivity|]); intros rt rh h; (split; [exists []; first [apply P|apply P2]|]); [apply F|split; [apply F|reflexivity]].
  - intros v cb [V U]. apply utf8_str_bytes in U as [_ ->]. repeat split.
  - intros v V. exists (str_bytes v). split; [split; [exact V|apply str_bytes_utf8; exact V]|reflexivity].
  - exact HF.
  - apply default_class_free; [exact HF|reflexivity|]. intros. apply check_primitive_free; assumption.
Qed.

(** BMPString and UniversalString *)

Lemma utf16_unique s a b : utf16be s a -> utf16be s b -> a = b.
Proof.
  intros H. revert b. induction H as [|c s u us Hc _ IH]; intros b Hb; inversion Hb as [|c' s' u' us' Hc' Hus' E1 E2]; subst; [reflexivity|].
  f_equal; [|apply IH; exact Hus'].
  destruct Hc; inversion Hc'; subst; unfold scalar in *; try lia; repeat (f_equal; try lia).
Qed.

Lemma ucs4_unique s a b : ucs4be s a -> ucs4be s b -> a = b.
Proof.
  intros H. revert b. induction H as [|c s u us Hc _ IH]; intros b Hb; inversion Hb as [|c' s' u' us' Hc' Hus' E1 E2]; subst; [reflexivity|].
  f_equal; [|apply IH; exact Hus'].
  destruct Hc as (L1 & O1 & V1 & _), Hc' as (L2 & O2 & V2 & _). apply (value_be_inj 256); try assumption; try congruence; reflexivity.
Qed.

Lemma wide_prim h cb : bytes_ok cb -> h_constructed h = false -> h_length h = Definite (blen cb) -> cb <> [] ->
  exists r, wide_data h cb = Ok (r, cb).
Proof.
  intros Hcb K L Hne. apply wide_iff; [exact Hcb| |auto]. unfold fits. rewrite L. reflexivity.
Qed.

Lemma bmp_base : base_sound bmp_codec tober_bmp false 30 bmp_syntax.
Proof.
  assert (HF : header_free (codec_parser bmp_codec)).
  { intros h h' d E1 E2. cbn [codec_parser ps_ber_content ps_der_content ber_content der_content bmp_codec].
    unfold bmp_ber_content. free h h' d E1 E2. split; reflexivity. }
  constructor; try reflexivity.
  - intros v cb [V _]; exact V.
  - intros v cb [_ U]. eapply utf16_ok; exact U.
  - intros v cb [[V Hne] U] _. pose proof (utf16_ok _ _ U) as Hcb.
    assert (cb <> []).
    { destruct v; [congruence|]. inversion U as [|c s' u us H1 H2 E1 E2]; subst. destruct H1; discriminate. }
    assert (E : from_utf16 (bmp_units cb) = Some v).
    { rewrite <- (app_nil_r cb), (from_utf16_complete v cb [] U). cbn. rewrite app_nil_r. reflexivity. }
    assert (P : forall rt rh, exists r, bmp_ber_content (mk_header Universal false 30 (Definite (blen cb)) rt rh) cb = Ok (r, v)).
    { intros rt rh. destruct (wide_prim (mk_header Universal false 30 (Definite (blen cb)) rt rh) cb) as [r W]; try assumption; try reflexivity.
      exists r. unfold bmp_ber_content. rewrite W. cbn [bind]. rewrite E. reflexivity. }
    assert (F : forall rt rh, try_from_any bmp_codec
       (mk_any (mk_header Universal false 30 (Definite (blen cb)) rt rh) cb) = Ok v).
    { intros rt rh. apply default_try_from_ok. split; [reflexivity|apply P]. }
    split; (split; [reflexivity|]); intros rt rh h; (split; [apply P|]); [apply F|split; [apply F|reflexivity]].
  - intros v cb [[V _] U]. rewrite (utf16_unique _ _ _ U (bmp_bytes_utf16 v V)).
    split; [reflexivity|]. split; [|reflexivity]. cbn [tb_content_len tober_bmp]. rewrite bmp_bytes_len. reflexivity.
  - intros v V. exists (bmp_bytes v). split; [split; [exact V|apply bmp_bytes_utf16; apply V]|].
    cbn [tb_content_len tober_bmp]. rewrite bmp_bytes_len. reflexivity.
  - exact HF.
  - apply default_class_free; [exact HF|reflexivity|]. intros. apply check_primitive_free; assumption.
Qed.

Lemma universal_base : base_sound universal_codec tober_universal false 28 universal_string_syntax.
Proof.
  assert (HF : header_free (codec_parser universal_codec)).
  { intros h h' d E1 E2. cbn [codec_parser ps_ber_content ps_der_content ber_content der_content universal_codec].
    unfold universal_ber_content. free h h' d E1 E2. split; reflexivity. }
  assert (TX : forall v, Forall ascii_char v -> is_text v).
  { intros v F. eapply Forall_impl; [|exact F]. unfold ascii_char, scalar. intros; lia. }
  assert (LN : forall v, Forall ascii_char v -> blen (str_bytes v) * 4 = blen (universal_bytes v)).
  { intros v F. rewrite (ucs4_len _ _ (universal_bytes_ucs4 v (TX v F))).
    assert (F' : Forall (fun c => c < 128) v) by (eapply Forall_impl; [|exact F]; unfold ascii_char; intros; lia).
    rewrite (proj1 (proj2 (str_bytes_len v)) F'). lia. }
  constructor; try reflexivity.
  - intros v cb [V _]; exact V.
  - intros v cb [_ U]. eapply ucs4_ok; exact U.
  - intros v cb [[V Hne] U] _. pose proof (ucs4_ok _ _ U) as Hcb.
    assert (cb <> []).
    { intros ->. apply ucs4_len in U. destruct v; [congruence|]. rewrite blen_cons in U. change (blen ([] : bytes)) with 0 in U. lia. }
    assert (E : universal_chars cb = Some v) by (apply universal_chars_iff; assumption).
    assert (E4 : blen cb mod 4 = 0) by (apply ucs4_len in U; rewrite U; lia).
    assert (P : forall rt rh, exists r, universal_ber_content (mk_header Universal false 28 (Definite (blen cb)) rt rh) cb = Ok (r, v)).
    { intros rt rh. destruct (wide_prim (mk_header Universal false 28 (Definite (blen cb)) rt rh) cb) as [r W]; try assumption; try reflexivity.
      exists r. unfold universal_ber_content. rewrite W. cbn [bind]. rewrite E4. cbn [N.eqb negb]. rewrite E. reflexivity. }
    assert (F : forall rt rh, try_from_any universal_codec
       (mk_any (mk_header Universal false 28 (Definite (blen cb)) rt rh) cb) = Ok v).
    { intros rt rh. apply default_try_from_ok. split; [reflexivity|apply P]. }
    split; (split; [reflexivity|]); intros rt rh h; (split; [apply P|]); [apply F|split; [apply F|reflexivity]].
  - intros v cb [[V _] U]. rewrite (ucs4_unique _ _ _ U (universal_bytes_ucs4 v (TX v V))).
    split; [reflexivity|]. cbn [tb_content_len tb_write_content tober_universal]. rewrite (LN v V). split; reflexivity.
  - intros v V. exists (universal_bytes v). split; [split; [exact V|apply universal_bytes_ucs4; apply TX; apply V]|].
    cbn [tb_content_len tober_universal]. rewrite (LN v (proj1 V)). reflexivity.
  - exact HF.
  - apply default_class_free; [exact HF|reflexivity|]. intros. apply check_primitive_free; assumption.
Qed.

(** ** Times *)

Lemma time_reads {T} (p : codec T) tag (P Q : bytes -> T -> Prop) cb v :
  plain p -> accept_tag p tag = true ->
  (forall h d v, (exists r, ber_content p h d = Ok (r, v)) <-> h_constructed h = false /\ P d v) ->
  (forall h d v, (exists r, der_content p h d = Ok (r, v)) <-> h_constructed h = false /\ Q d v) ->
  (forall h, Q cb v -> check_constraints p (mk_any h cb) = Ok tt) ->
  P cb v -> Q cb v -> ber_reads p Universal false tag cb v /\ der_reads p Universal false tag cb v.
Proof.
  intros Hp Ha Hb Hd Hc HP HQ.
  assert (F : forall rt rh, try_from_any p (mk_any (mk_header Universal false tag (Definite (blen cb)) rt rh) cb) = Ok v).
  { intros rt rh. rewrite Hp. apply default_try_from_ok. split; [exact Ha|]. apply Hb. auto. }
  split; (split; [exact Ha|]); intros rt rh h.
  - split; [apply Hb; auto|apply F].
  - split; [apply Hd; auto|]. split; [apply F|apply Hc; exact HQ].
Qed.

Lemma utc_base : base_sound utc_codec tober_utc false 23 utc_syntax.
Proof.
  assert (HF : header_free (codec_parser utc_codec)).
  { intros h h' d E1 E2. cbn [codec_parser ps_ber_content ps_der_content ber_content der_content utc_codec].
    unfold utc_ber_content, utc_der_content. free h h' d E1 E2. split; reflexivity. }
  assert (NC : forall w s, utc_canonical w s -> ~ In 44 s).
  { intros w s (((y & mo & d & h & mi & sec & fr & z & Fy & Fmo & Fd & Fh & Fmi & Fs & Ff & Fz & ->) & Nf & _) & S & Z) H.
    assert (X : forall k n s, fixed k n s -> ~ In 44 s).
    { intros k n s (ds & -> & F & _) X. apply in_map_iff in X as (x & E & Hx). lia. }
    rewrite Z in Fz. rewrite Nf in Ff. cbn in Ff, Fz. subst fr z. destruct (w_second w) as [n|]; [|congruence]. cbn in Fs.
    rewrite !in_app_iff in H. destruct H as [H|[H|[H|[H|[H|[H|[[]|[H|[]]]]]]]]]; try (eapply X; [|exact H]; eassumption). discriminate. }
  constructor; try reflexivity.
  - intros v cb [V _]. exact V.
  - intros v cb [_ [[T _] _]]. eapply text_bytes. exact T.
  - intros t cb [(Hy & Hr & Hm & Hz) [T [S Z]]] _.
    assert (P : utc_reads cb t).
    { exists (written_as t None). split; [exact T|]. split; [exact Hr|]. split; [discriminate|].
      apply utc_fields; assumption. }
    apply (time_reads utc_codec 23 utc_reads utc_reads); try exact P; try reflexivity.
    + intros a; reflexivity.
    + exact utc_ber_iff.
    + exact utc_der_iff.
  - intros t cb [(Hy & Hr & Hm & Hz) C]. destruct (utc_text_written t Hy Hr) as [C' L].
    assert (E : cb = utc_text t) by (eapply time_text_unique; [apply C|apply C'|eapply NC; exact C|eapply NC; exact C']).
    subst cb. split; [reflexivity|]. rewrite L. split; reflexivity.
  - intros t V. destruct V as (Hy & Hr & Hm & Hz). destruct (utc_text_written t Hy Hr) as [C' L]. exists (utc_text t).
    split; [split; [repeat split; try assumption; apply Hr|exact C']|]. rewrite L. reflexivity.
  - exact HF.
  - apply default_class_free; [exact HF|reflexivity|]. reflexivity.
Qed.

Lemma gen_base : base_sound gen_codec tober_gen false 24 gen_syntax.
Proof.
  assert (HF : header_free (codec_parser gen_codec)).
  { intros h h' d E1 E2. cbn [codec_parser ps_ber_content ps_der_content ber_content der_content gen_codec].
    unfold gen_ber_content, gen_der_content. free h h' d E1 E2. split; reflexivity. }
  constructor; try reflexivity.
  - intros v cb [V _]. exact V.
  - intros v cb [_ (frac & _ & T & _)]. eapply text_bytes. exact T.
  - intros t cb [(Hy & Hr & Hm & Hz) (frac & Sf & T & N44)] _.
    destruct (gen_reads_written t frac Hr Hz Sf Hm) as (R & S & E).
    assert (P : gen_reads cb t) by (exists (written_as t frac); auto).
    assert (Q : gen_der_reads cb t) by (exists (written_as t frac); auto 8).
    apply (time_reads gen_codec 24 gen_reads gen_der_reads); try assumption; try reflexivity.
    + intros a; reflexivity.
    + exact gen_ber_iff.
    + exact gen_der_iff.
    + intros h Q'. apply gen_der_iff' in Q'. apply Q'.
  - intros t cb [(Hy & Hr & Hm & Hz) (frac & Sf & T & N44)].
    destruct (gen_text_written t Hy Hr) as (frac' & T' & M & L & N44' & W1 & W2).
    assert (frac = frac') by (eapply shown_unique; [exact Sf|exact M]). subst frac'.
    assert (cb = gen_text t) by (eapply time_text_unique; eassumption). subst cb.
    split; [reflexivity|]. split; [exact W1|exact W2].
  - intros t (Hy & Hr & Hm & Hz). destruct (gen_text_written t Hy Hr) as (frac' & T' & M & L & N44' & W1 & W2).
    exists (gen_text t). split; [|exact W1]. split; [repeat split; try assumption; apply Hr|]. exists frac'. auto.
  - exact HF.
  - apply default_class_free; [exact HF|reflexivity|]. reflexivity.
Qed.
