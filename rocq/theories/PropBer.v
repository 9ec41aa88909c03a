(** Properties of object parsing and iteration: C05, C06, C07 (objects), C08, C09, C10, C11, C12. *)
From Verif Require Import Base MHeader MEncode SHeader PArith PHeader PEncode MBer SBer PBer PIter.

(** ** C05: stability under more input *)

Theorem C05_stability (i x : bytes) :
  bytes_ok i -> bytes_ok x ->
  (forall r h, header_parse_ber i = Ok (r, h) -> header_parse_ber (i ++ x) = Ok (r ++ x, h))
  /\ (forall r h, header_parse_der i = Ok (r, h) -> header_parse_der (i ++ x) = Ok (r ++ x, h))
  /\ (forall r a, parse_ber_any i = Ok (r, a) -> parse_ber_any (i ++ x) = Ok (r ++ x, a))
  /\ (forall r a, parse_der_any i = Ok (r, a) -> parse_der_any (i ++ x) = Ok (r ++ x, a))
  /\ (forall T (p : codec T) r v, parse_ber p i = Ok (r, v) -> parse_ber p (i ++ x) = Ok (r ++ x, v))
  /\ (forall T (p : codec T) r v, parse_der p i = Ok (r, v) -> parse_der p (i ++ x) = Ok (r ++ x, v))
  /\ (forall T (p : codec T) r v, from_ber p i = Ok (r, v) -> from_ber p (i ++ x) = Ok (r ++ x, v))
  /\ (forall T (p : codec T) r v, from_der p i = Ok (r, v) -> from_der p (i ++ x) = Ok (r ++ x, v)).
Proof.
  intros Hi Hx.
  assert (S : forall A (p : bytes -> res (bytes * A)), streaming p ->
     forall r a, p i = Ok (r, a) -> p (i ++ x) = Ok (r ++ x, a)).
  { intros A p Hp r a E. specialize (Hp i Hi). rewrite E in Hp. apply Hp. exact Hx. }
  split; [apply S, streaming_parse_header|]. split; [apply S, streaming_header_parse_der|].
  split; [apply S, streaming_parse_ber_any|]. split; [apply S, streaming_parse_der_any|].
  split; [intros; apply parse_ber_stable; assumption|].
  split; [intros; apply parse_der_stable; assumption|].
  split; [intros; apply from_ber_stable; assumption|].
  intros; apply from_der_stable; assumption.
Qed.
Print Assumptions C05_stability.

Example C05_case :
  exists a, parse_ber_any [0x30; 0x80; 0x02; 0x01; 0x05; 0; 0; 7] = Ok ([7], a)
            /\ any_data a = [2; 1; 5].
Proof. eexists. vm_compute. split; reflexivity. Qed.

(** ** C06: [Incomplete] is truthful *)

(** [p] answers [Incomplete n] only with [n >= 1] and when fewer than [n] further bytes leave it
    incomplete; an error other than [InvalidTag] is final. *)
Definition truthful {A} (p : bytes -> res (bytes * A)) : Prop :=
  forall i x, bytes_ok i -> bytes_ok x ->
    (forall n, p i = Incomplete n -> 1 <= n /\ (blen x < n -> p (i ++ x) = Incomplete (n - blen x)))
    /\ (forall e, p i = Err e -> e <> EInvalidTag -> p (i ++ x) = Err e).

Lemma streaming_truthful {A} (p : bytes -> res (bytes * A)) : streaming p -> truthful p.
Proof.
  intros H i x Hi Hx. specialize (H i Hi). split.
  - intros n E. rewrite E in H. destruct H as [H1 H]. split; [exact H1|]. apply H. exact Hx.
  - intros e E He. rewrite E in H. apply H; assumption.
Qed.

Theorem C06_incomplete_truthful_partial :
  truthful header_parse_ber /\ truthful header_parse_der
  /\ truthful parse_ber_any /\ truthful parse_der_any
  /\ (forall T (p : codec T), settled_codec p -> truthful (parse_ber p) /\ truthful (parse_der p))
  /\ (forall T (p : codec T), settled_from p -> truthful (from_ber p) /\ truthful (from_der p)).
Proof.
  split; [apply streaming_truthful, streaming_parse_header|].
  split; [apply streaming_truthful, streaming_header_parse_der|].
  split; [apply streaming_truthful, streaming_parse_ber_any|].
  split; [apply streaming_truthful, streaming_parse_der_any|].
  split; intros T p H.
  - split; apply streaming_truthful; [apply streaming_parse_ber|apply streaming_parse_der]; exact H.
  - split; apply streaming_truthful; [apply streaming_from_ber|apply streaming_from_der]; exact H.
Qed.
Print Assumptions C06_incomplete_truthful_partial.

Example C06_case :
  parse_ber_any [0x30; 0x0a; 0x02] = Incomplete 9
  /\ parse_ber_any ([0x30; 0x0a; 0x02] ++ [0x01; 0x05]) = Incomplete 7
  /\ parse_ber_any [0x04; 0xff; 0x00] = Err EInvalidLength.
Proof. vm_compute. repeat split. Qed.

(** A truncated multi-octet tag is reported as a definitive error although more bytes complete it. *)
Theorem C06_error_final_refuted :
  exists i x e, header_parse_ber i = Err e /\ parse_ber_any i = Err e
    /\ is_ok (header_parse_ber (i ++ x)) = true /\ is_ok (parse_ber_any (i ++ x)) = true.
Proof. exists [0x1f], [0x1f; 0x00], EInvalidTag. vm_compute. repeat split. Qed.
Print Assumptions C06_error_final_refuted.

(** ** C07: no panic in header, object and iterator code *)

Theorem C07_objects_no_panic (i : bytes) :
  bytes_ok i ->
  header_parse_ber i <> Panic /\ header_parse_der i <> Panic
  /\ parse_ber_any i <> Panic /\ parse_der_any i <> Panic
  /\ any_parse_ber i <> Panic /\ any_parse_der i <> Panic
  /\ from_ber any_codec i <> Panic /\ from_der any_codec i <> Panic
  /\ (forall d h, ber_object_content h i d <> Panic)
  /\ (forall n, ~ In (Some Panic) (fst (iter_calls any_parse_ber n (iter_new i)))
             /\ ~ In (Some Panic) (fst (iter_calls any_parse_der n (iter_new i)))).
Proof.
  intros Hi.
  assert (S : forall A (p : bytes -> res (bytes * A)), streaming p -> p i <> Panic).
  { intros A p Hp E. specialize (Hp i Hi). rewrite E in Hp. exact Hp. }
  assert (F : settled_from any_codec).
  { split; intros a _; cbn; [exact I|]. unfold any_check_constraints, length_assert_definite.
    destruct (is_definite (h_length (any_header a))); exact I. }
  split; [apply S, streaming_parse_header|]. split; [apply S, streaming_header_parse_der|].
  split; [apply S, streaming_parse_ber_any|]. split; [apply S, streaming_parse_der_any|].
  split; [apply S, streaming_any_parse_ber|]. split; [apply S, streaming_any_parse_der|].
  split; [apply S, streaming_from_ber, F|]. split; [apply S, streaming_from_der, F|].
  split; [intros d h; apply (S _ (fun i => ber_object_content h i d)), streaming_ber_object_content|].
  assert (G : forall p n, object_parser p -> ~ In (Some Panic) (fst (iter_calls p n (iter_new i)))).
  { intros p n Hp Hin. destruct (iter_calls_spec p n i Hp Hi) as (oks & e & k & E & _ & _ & _ & He).
    rewrite E in Hin. apply in_app_or in Hin as [Hin|Hin].
    - apply in_map_iff in Hin as (x & Hx & _). discriminate.
    - apply in_app_or in Hin as [Hin|Hin].
      + destruct He as [[-> _]|(err & -> & _)]; [destruct Hin|]. destruct Hin as [Hin|[]]. discriminate.
      + apply repeat_spec in Hin. discriminate. }
  intros n. split; apply G; [apply object_parser_ber|apply object_parser_der].
Qed.
Print Assumptions C07_objects_no_panic.

(** An object, the same cut short, and the same for DER. *)
Example C07_case :
  bytes_ok [0x30; 0x80; 2; 1; 7; 0; 0; 1] /\ is_ok (parse_ber_any [0x30; 0x80; 2; 1; 7; 0; 0; 1]) = true
  /\ parse_ber_any [0x30; 0x80; 2; 1; 7] = Incomplete 1 /\ parse_der_any [0x30; 0x80; 2; 1; 7; 0; 0; 1] = Err (EDerConstraintFailed DCIndefiniteLength).
Proof. split; [repeat constructor|]. vm_compute. repeat split. Qed.

(** ** C08: an object parse splits its input *)

(** The header bytes, the data and what closes the object add up to the bytes consumed.  For an
    indefinite length the closing bytes are the last two bytes of what was read as a marker. *)
Theorem C08_object_split_partial (i rem : bytes) (a : any) :
  bytes_ok i ->
  (parse_ber_any i = Ok (rem, a) \/ parse_der_any i = Ok (rem, a)) ->
  exists hb eoc,
    i = hb ++ any_data a ++ eoc ++ rem /\ h_raw_header (any_header a) = Some hb
    /\ header_parse_ber i = Ok (any_data a ++ eoc ++ rem, any_header a)
    /\ match h_length (any_header a) with
       | Definite n => blen (any_data a) = n /\ eoc = []
       | Indefinite => length eoc = 2%nat
           /\ exists es m, any_data a ++ eoc = es ++ m /\ marker_like m /\ (length m = 2%nat -> m = eoc)
       end.
Proof.
  intros Hi [E|E].
  - apply parse_ber_any_ok in E as (c & k & t & l & idb & lenb & bs & [HO HL] & -> & Hc & ->);
      [|exact Hi].
    cbn [any_header any_data h_raw_header h_length].
    assert (P : header_parse_ber (idb ++ lenb ++ bs ++ rem) = Ok (bs ++ rem,
       mk_header c k (t mod 2 ^ 32) l (Some idb) (Some (idb ++ lenb)))).
    { apply parse_header_ok; [exact Hi|]. exists c, k, t, l, idb, lenb. auto. }
    exists (idb ++ lenb). destruct l as [n|]; cbn [content_of].
    + exists []. cbn [app]. rewrite <- app_assoc. repeat split; try assumption.
      apply contents_definite_len in Hc. exact Hc.
    + exists (skipn (length bs - 2) bs).
      assert (Esplit : bs ++ rem = firstn (length bs - 2) bs ++ skipn (length bs - 2) bs ++ rem)
        by (rewrite app_assoc, firstn_skipn; reflexivity).
      pose proof (contents_indefinite_len _ _ _ _ marker_like_len Hc) as H2.
      rewrite <- Esplit, <- app_assoc. repeat split; try assumption.
      * rewrite skipn_length. lia.
      * rewrite firstn_skipn. inversion Hc as [|d es m He Hm]; subst.
        exists es, m. repeat split; [exact Hm|]. intros Hm2.
        rewrite app_length, Hm2. replace (length es + 2 - 2)%nat with (length es) by lia.
        rewrite skipn_app, skipn_all, Nat.sub_diag. reflexivity.
  - apply parse_der_any_ok in E as (c & k & t & n & idb & lenb & bs & [HO HL] & -> & Hn & ->);
      [|exact Hi].
    cbn [any_header any_data h_raw_header h_length]. exists (idb ++ lenb), [].
    cbn [app]. rewrite <- app_assoc. repeat split; try assumption.
    apply parse_header_ok; [exact Hi|]. exists c, k, t, (Definite n), idb, lenb. auto.
Qed.
Print Assumptions C08_object_split_partial.

Example C08_case :
  exists a, parse_ber_any [0x30; 0x80; 0x02; 0x01; 0x05; 0; 0; 7] = Ok ([7], a)
    /\ [0x30; 0x80; 0x02; 0x01; 0x05; 0; 0; 7] = [0x30; 0x80] ++ any_data a ++ [0; 0] ++ [7]
    /\ h_length (any_header a) = Indefinite.
Proof. eexists. vm_compute. repeat split. Qed.

(** With a marker whose length is written in long form, part of the marker ends up in the data. *)
Theorem C08_marker_in_data_refuted :
  exists i a, parse_ber_any i = Ok ([], a) /\ h_length (any_header a) = Indefinite
    /\ any_data a = [0x00] /\ i = [0x30; 0x80] ++ any_data a ++ [0x81; 0x00].
Proof. exists [0x30; 0x80; 0x00; 0x81; 0x00]. eexists. vm_compute. repeat split. Qed.
Print Assumptions C08_marker_in_data_refuted.

(** ** C09: exact grammar of BER objects *)

Theorem C09_object_grammar (i rem : bytes) (a : any) :
  bytes_ok i ->
  (parse_ber_any i = Ok (rem, a) <->
   exists c k t l idb lenb bs,
     readable_header c k t l idb lenb /\ i = idb ++ lenb ++ bs ++ rem
     /\ impl_contents 50 l bs
     /\ a = mk_any (mk_header c k (t mod 2 ^ 32) l (Some idb) (Some (idb ++ lenb)))
                   (match l with Definite _ => bs | Indefinite => firstn (length bs - 2) bs end)).
Proof. exact (parse_ber_any_ok i rem a). Qed.
Print Assumptions C09_object_grammar.

(** Every standard encoding in which no sub-object of an indefinite-length object is an empty object
    with tag number 0 is accepted, with the standard contents as data. *)
Theorem C09_standard_objects_partial (c : class) (k : bool) (t : N) (l : blength)
    (idb lenb bs rem : bytes) :
  bytes_ok (idb ++ lenb ++ bs ++ rem) -> readable_header c k t l idb lenb ->
  contents marker_standard marker_like 50 l bs ->
  exists h, parse_ber_any (idb ++ lenb ++ bs ++ rem)
    = Ok (rem, mk_any h (match l with Definite _ => bs | Indefinite => firstn (length bs - 2) bs end))
    /\ h_class h = c /\ h_constructed h = k /\ h_tag h = t mod 2 ^ 32 /\ h_length h = l.
Proof.
  intros Hok HR Hc.
  exists (mk_header c k (t mod 2 ^ 32) l (Some idb) (Some (idb ++ lenb))). split; [|repeat split].
  apply parse_ber_any_ok; [exact Hok|]. exists c, k, t, l, idb, lenb, bs. repeat split; try assumption;
    try apply HR. clear - Hc.
  assert (Hm : forall m, marker_standard m -> marker_like m).
  { intros m ->. exists Universal, false, 0, [0], [0]. split; [split|split; reflexivity].
    - split; [apply (id_low Universal false 0); reflexivity|].
      split; [apply (lo_short 0); reflexivity|discriminate].
    - split; [vm_compute; discriminate|]. intros n E. injection E as <-. reflexivity. }
  unfold impl_contents, MAX_RECURSION. revert Hc. generalize 50%nat. intros d Hc.
  refine (proj1 (contents_elements_ind marker_standard marker_like
    (fun d l bs _ => contents marker_like marker_like d l bs)
    (fun d es _ => elements marker_like marker_like d es) _ _ _ _) d l bs Hc).
  - intros. constructor. assumption.
  - intros. constructor; [assumption|]. apply Hm. assumption.
  - intros. constructor.
  - intros. econstructor; eassumption.
Qed.
Print Assumptions C09_standard_objects_partial.

Example C09_case :
  contents marker_standard marker_like 50 Indefinite [0x24; 0x80; 0x04; 0x01; 0x61; 0; 0; 0; 0].
Proof.
  apply (contents_indefinite _ _ 48 [0x24; 0x80; 0x04; 0x01; 0x61; 0; 0]); [|reflexivity].
  apply (elements_cons _ _ 49 Universal true 4 Indefinite [0x24] [0x80] [0x04; 0x01; 0x61; 0; 0] []).
  - split; [split; [apply (id_low Universal true 4); reflexivity|split; [constructor|reflexivity]]|].
    split; [vm_compute; discriminate|discriminate].
  - rewrite (marker_like_iff Universal true 4 Indefinite [0x24] [0x80]).
    + intros [E _]. discriminate.
    + split; [split; [apply (id_low Universal true 4); reflexivity|split; [constructor|reflexivity]]|].
      split; [vm_compute; discriminate|discriminate].
  - apply (contents_indefinite _ _ 47 [0x04; 0x01; 0x61]); [|reflexivity].
    apply (elements_cons _ _ 48 Universal false 4 (Definite 1) [0x04] [0x01] [0x61] []).
    + split; [split; [apply (id_low Universal false 4); reflexivity|split; [apply (lo_short 1); reflexivity|discriminate]]|].
      split; [vm_compute; discriminate|intros n E; injection E as <-; reflexivity].
    + rewrite (marker_like_iff Universal false 4 (Definite 1) [0x04] [0x01]).
      * intros [E _]. discriminate.
      * split; [split; [apply (id_low Universal false 4); reflexivity|split; [apply (lo_short 1); reflexivity|discriminate]]|].
        split; [vm_compute; discriminate|intros n E; injection E as <-; reflexivity].
    + constructor. reflexivity.
    + constructor.
  - constructor.
Qed.

(** A standard object whose indefinite-length contents hold an empty context-specific object is cut
    short: the parser takes [80 00] for the end-of-contents marker. *)
Theorem C09_standard_grammar_refuted :
  exists bs, standard_contents 50 Indefinite bs
    /\ readable_header Universal true 16 Indefinite [0x30] [0x80]
    /\ exists a, parse_ber_any ([0x30] ++ [0x80] ++ bs ++ []) = Ok ([0; 0], a) /\ any_data a = [].
Proof.
  exists [0x80; 0x00; 0x00; 0x00]. split; [|split].
  - apply (contents_indefinite _ _ 48 [0x80; 0x00]); [|reflexivity].
    apply (elements_cons _ _ 49 ContextSpecific false 0 (Definite 0) [0x80] [0x00] [] []).
    + split; [split; [apply (id_low ContextSpecific false 0); reflexivity|split; [apply (lo_short 0); reflexivity|discriminate]]|].
      split; [vm_compute; discriminate|intros n E; injection E as <-; reflexivity].
    + intros E. discriminate.
    + constructor. reflexivity.
    + constructor.
  - split; [split; [apply (id_low Universal true 16); reflexivity|split; [constructor|reflexivity]]|].
    split; [vm_compute; discriminate|discriminate].
  - eexists. vm_compute. split; reflexivity.
Qed.
Print Assumptions C09_standard_grammar_refuted.

(** ** C10: the recursion limit *)

(** Header octets opening an indefinite-length object. *)
Definition opener (o : bytes) : Prop :=
  exists c t idb, readable_header c true t Indefinite idb [128] /\ o = idb ++ [128].

Lemma opener_parse o x :
  opener o -> bytes_ok x ->
  exists h, header_parse_ber (o ++ x) = Ok (x, h) /\ h_length h = Indefinite /\ h_constructed h = true.
Proof.
  intros (c & t & idb & [HO HL] & ->) Hx.
  eexists. split.
  - apply parse_header_ok.
    + rewrite <- app_assoc. destruct HO as (O1 & O2 & _). apply bytes_ok_app.
      split; [eapply ident_octets_ok; eassumption|]. apply bytes_ok_app.
      split; [eapply length_octets_ok; eassumption|exact Hx].
    + exists c, true, t, Indefinite, idb, [128]. rewrite <- app_assoc. repeat split; try apply HO; apply HL.
  - split; reflexivity.
Qed.

Lemma openers_ok ops : Forall opener ops -> bytes_ok (concat ops).
Proof.
  induction 1 as [|o ops (c & t & idb & [HO HL] & ->) H IH]; [constructor|]. cbn [concat].
  destruct HO as (O1 & O2 & _). apply bytes_ok_app. split; [|exact IH]. apply bytes_ok_app.
  split; [eapply ident_octets_ok; eassumption|eapply length_octets_ok; eassumption].
Qed.

Lemma too_deep d h ops x :
  Forall opener ops -> bytes_ok x -> h_length h = Indefinite -> h_constructed h = true ->
  ((d <= length ops)%nat \/ (d = S (length ops) /\ is_ok (header_parse_ber x) = true)) ->
  skip_content d h (concat ops ++ x) = Err EBerMaxDepth.
Proof.
  intros Hops Hx. revert h ops Hops. induction d as [|d IH]; intros h ops Hops Hl Hk Hd; [reflexivity|].
  cbn [skip_content]. rewrite Hl. unfold assert_constructed. rewrite Hk. cbn [bind].
  destruct Hops as [|o ops Ho Hops].
  - cbn [concat app length] in *. destruct Hd as [Hd|[Hd Hp]]; [lia|]. injection Hd as ->.
    cbn [skip_loop]. destruct (header_parse_ber x) as [[r h2]| | |]; try discriminate. reflexivity.
  - assert (Hok : bytes_ok (concat ops ++ x)) by (apply bytes_ok_app; split; [apply openers_ok|]; assumption).
    cbn [concat]. rewrite <- app_assoc.
    destruct (opener_parse o (concat ops ++ x) Ho Hok) as (h2 & P & Hl2 & Hk2).
    cbn [skip_loop]. rewrite P. cbn [bind]. rewrite IH; try assumption; [reflexivity|].
    cbn [length] in Hd. destruct Hd as [Hd|[Hd Hp]]; [left; lia|right; split; [lia|exact Hp]].
Qed.

Lemma repeat_snoc {A} (x : A) n : repeat x (S n) = repeat x n ++ [x].
Proof. induction n as [|n IH]; [reflexivity|]. cbn [repeat app] in *. rewrite <- IH. reflexivity. Qed.

Lemma deep_enough d ops :
  Forall opener ops -> (length ops + 2 <= d)%nat ->
  impl_contents d Indefinite (concat ops ++ concat (repeat [0; 0] (S (length ops)))).
Proof.
  assert (M : marker_like [0; 0]).
  { exists Universal, false, 0, [0], [0]. split; [split|split; reflexivity].
    - split; [apply (id_low Universal false 0); reflexivity|].
      split; [apply (lo_short 0); reflexivity|discriminate].
    - split; [vm_compute; discriminate|]. intros n E. injection E as <-. reflexivity. }
  intros Hops. revert d. induction Hops as [|o ops Ho Hops IH]; intros d Hd.
  - destruct d as [|[|d]]; [cbn in Hd; lia|cbn in Hd; lia|].
    apply (contents_indefinite _ _ d [] [0; 0]); [constructor|exact M].
  - cbn [length] in Hd. destruct d as [|[|d]]; [lia|lia|].
    destruct Ho as (c & t & idb & HR & ->).
    rewrite repeat_snoc, concat_app. cbn [concat length]. rewrite app_nil_r.
    replace (((idb ++ [128]) ++ concat ops) ++ concat (repeat [0; 0] (S (length ops))) ++ [0; 0])
      with ((idb ++ [128] ++ (concat ops ++ concat (repeat [0; 0] (S (length ops)))) ++ []) ++ [0; 0])
      by (rewrite app_nil_r, <- !app_assoc; reflexivity).
    apply contents_indefinite; [|exact M]. econstructor.
    + exact HR.
    + rewrite (marker_like_iff _ _ _ _ _ _ HR). intros [E _]. discriminate.
    + apply IH. lia.
    + constructor.
Qed.

(** Objects of indefinite length nested [n] deep, the innermost empty: accepted up to 49 levels,
    rejected with the max-depth error beyond whatever follows the opening headers (at exactly 50
    levels, as soon as one more header can be read). *)
Theorem C10_recursion_limit (ops : list bytes) (rest x : bytes) :
  Forall opener ops -> bytes_ok rest -> bytes_ok x ->
  ((1 <= length ops <= 49)%nat ->
     exists a, parse_ber_any (concat ops ++ concat (repeat [0; 0] (length ops)) ++ rest) = Ok (rest, a))
  /\ ((51 <= length ops)%nat -> parse_ber_any (concat ops ++ x) = Err EBerMaxDepth)
  /\ (length ops = 50%nat -> is_ok (header_parse_ber x) = true ->
     parse_ber_any (concat ops ++ x) = Err EBerMaxDepth).
Proof.
  intros Hops Hrest Hx.
  assert (Deep : forall o ops', Forall opener (o :: ops') ->
    ((50 <= length ops')%nat \/ (50%nat = S (length ops') /\ is_ok (header_parse_ber x) = true)) ->
    parse_ber_any (concat (o :: ops') ++ x) = Err EBerMaxDepth).
  { intros o ops' H Hd. inversion H as [|? ? Ho Hops']; subst. cbn [concat]. rewrite <- app_assoc.
    assert (Hok : bytes_ok (concat ops' ++ x)) by (apply bytes_ok_app; split; [apply openers_ok|]; assumption).
    destruct (opener_parse o (concat ops' ++ x) Ho Hok) as (h2 & P & Hl2 & Hk2).
    unfold parse_ber_any. rewrite P. cbn [bind]. unfold ber_object_content, MAX_RECURSION.
    rewrite too_deep by assumption. reflexivity. }
  split; [|split].
  - intros Hn. destruct ops as [|o ops]; [cbn in Hn; lia|].
    inversion Hops as [|? ? Ho Hops']; subst. destruct Ho as (c & t & idb & HR & ->).
    assert (Hz : bytes_ok (concat (repeat [0; 0] (S (length ops))))).
    { clear. induction (S (length ops)) as [|n IH]; cbn [repeat concat]; [constructor|].
      repeat (constructor; [reflexivity|]). exact IH. }
    eexists. apply parse_ber_any_ok.
    + apply bytes_ok_app. split; [apply openers_ok; exact Hops|]. apply bytes_ok_app. split; assumption.
    + exists c, true, t, Indefinite, idb, [128], (concat ops ++ concat (repeat [0; 0] (S (length ops)))).
      split; [exact HR|]. split; [cbn [concat length]; rewrite <- !app_assoc; reflexivity|].
      split; [|reflexivity]. apply deep_enough; [exact Hops'|]. cbn [length] in Hn. unfold MAX_RECURSION. lia.
  - intros Hn. destruct ops as [|o ops]; [cbn in Hn; lia|]. apply Deep; [exact Hops|]. cbn in Hn. left. lia.
  - intros Hn Hp. destruct ops as [|o ops]; [discriminate|]. apply Deep; [exact Hops|].
    cbn in Hn. right. split; [lia|exact Hp].
Qed.
Print Assumptions C10_recursion_limit.

Example C10_case : opener [0x30; 0x80] /\ opener [0xbf; 0x81; 0x00; 0x80].
Proof.
  split.
  - exists Universal, 16, [0x30]. split; [|reflexivity].
    split; [split; [apply (id_low Universal true 16); reflexivity|split; [constructor|reflexivity]]|].
    split; [vm_compute; discriminate|discriminate].
  - exists ContextSpecific, 128, [0xbf; 0x81; 0x00]. split; [|reflexivity].
    split; [split; [apply (id_high ContextSpecific true [1] 0); repeat constructor|split; [constructor|reflexivity]]|].
    split; [vm_compute; discriminate|discriminate].
Qed.

(** ** C11: DER is a restriction of BER *)

Theorem C11_der_subset (i rem : bytes) (a : any) :
  bytes_ok i ->
  (from_der any_codec i = Ok (rem, a) <->
   from_ber any_codec i = Ok (rem, a) /\ h_length (any_header a) <> Indefinite).
Proof.
  intros Hi.
  assert (D : from_der any_codec i = Ok (rem, a) <-> parse_der_any i = Ok (rem, a)).
  { unfold from_der, any_codec. cbn [check_constraints try_from_any]. rewrite bind_ok. split.
    - intros ([r v] & E & F). apply bind_ok in F as ([] & _ & F). cbn [bind] in F. injection F as -> ->. exact E.
    - intros E. exists (rem, a). split; [exact E|].
      apply parse_der_any_ok in E as (c & k & t & n & idb & lenb & bs & HR & -> & Hn & ->); [|exact Hi].
      reflexivity. }
  assert (B : from_ber any_codec i = Ok (rem, a) <-> parse_ber_any i = Ok (rem, a)).
  { unfold from_ber, any_codec. cbn [try_from_any]. rewrite bind_ok. split.
    - intros ([r v] & E & F). cbn [bind] in F. injection F as -> ->. exact E.
    - intros E. exists (rem, a). split; [exact E|reflexivity]. }
  rewrite D, B. clear D B. split.
  - intros E. apply parse_der_any_ok in E as (c & k & t & n & idb & lenb & bs & HR & -> & Hn & ->);
      [|exact Hi].
    split; [|discriminate]. apply parse_ber_any_ok; [exact Hi|].
    exists c, k, t, (Definite n), idb, lenb, bs. repeat split; try apply HR. constructor. exact Hn.
  - intros [E Hl]. apply parse_ber_any_ok in E as (c & k & t & l & idb & lenb & bs & HR & -> & Hc & ->);
      [|exact Hi].
    cbn [any_header h_length] in Hl. destruct l as [n|]; [|congruence].
    apply parse_der_any_ok; [exact Hi|]. exists c, k, t, n, idb, lenb, bs. repeat split; try apply HR.
    apply contents_definite_len in Hc. exact Hc.
Qed.
Print Assumptions C11_der_subset.

Example C11_case :
  exists a, from_der any_codec [0x30; 0x03; 0x02; 0x01; 0x05; 9] = Ok ([9], a)
            /\ from_ber any_codec [0x30; 0x03; 0x02; 0x01; 0x05; 9] = Ok ([9], a).
Proof. eexists. vm_compute. split; reflexivity. Qed.

(** ** C12: iteration partitions the content *)

(** [n] calls to [next] on [i] give, in order: objects whose encodings ([fst]) are consecutive slices
    of [i], each parsing on its own to the object returned; then at most one error; then only [None].
    Without an error, [None] appears only after all bytes are consumed; with one, the error is the one
    met at the first unread byte.  [None] appears within [length i / 2 + 2] calls. *)
Theorem C12_iteration (p : bytes -> res (bytes * any)) (i : bytes) (n : nat) :
  p = any_parse_ber \/ p = any_parse_der -> bytes_ok i ->
  let final := it_input (snd (iter_calls p n (iter_new i))) in
  exists oks e k,
    fst (iter_calls p n (iter_new i)) = map (fun x => Some (Ok x)) oks ++ e ++ repeat None k
    /\ i = concat (map fst oks) ++ final
    /\ Forall (fun x => p (fst x) = Ok ([], snd x) /\ (2 <= length (fst x))%nat) oks
    /\ (e = [] /\ (k <> 0%nat -> final = [])
        \/ exists err, e = [Some (Err err)] /\ final <> [] /\ close (p final) = Err err)
    /\ ((length i / 2 + 2 <= n)%nat -> k <> 0%nat).
Proof.
  intros Hp Hi. cbv zeta.
  assert (O : object_parser p)
    by (destruct Hp as [-> | ->]; [apply object_parser_ber|apply object_parser_der]).
  destruct (iter_calls_spec p n i O Hi) as (oks & e & k & E1 & E2 & E3 & E4 & E5).
  exists oks, e, k. split; [exact E1|]. split; [exact E3|]. split; [exact E4|]. split; [exact E5|].
  intros Hn. assert (L : (2 * length oks <= length (concat (map fst oks)))%nat).
  { apply concat_len_2. eapply Forall_impl; [|exact E4]. intros x [_ H]. exact H. }
  apply (f_equal (@length N)) in E3. rewrite app_length in E3.
  assert (Hdiv : (2 * (length i / 2) <= length i < 2 * (length i / 2) + 2)%nat).
  { pose proof (Nat.div_mod (length i) 2 ltac:(lia)). pose proof (Nat.mod_upper_bound (length i) 2 ltac:(lia)). lia. }
  destruct E5 as [[-> _]|(err & -> & Hne & _)]; cbn [length] in E2; [lia|].
  assert (1 <= length (it_input (snd (iter_calls p n (iter_new i)))))%nat
    by (destruct (it_input (snd (iter_calls p n (iter_new i)))); [congruence|cbn; lia]).
  lia.
Qed.
Print Assumptions C12_iteration.

(** Collecting the iterator succeeds exactly when the bytes are a concatenation of objects. *)
Theorem C12_collect (p : bytes -> res (bytes * any)) (i r : bytes) (objs : list any) :
  p = any_parse_ber \/ p = any_parse_der -> bytes_ok i ->
  (try_collect p i = Ok (r, objs) <->
   r = [] /\ exists encs, i = concat encs
     /\ Forall2 (fun enc a => p enc = Ok ([], a)) encs objs).
Proof.
  intros Hp Hi.
  assert (O : object_parser p)
    by (destruct Hp as [-> | ->]; [apply object_parser_ber|apply object_parser_der]).
  unfold try_collect. rewrite (collect_ok p (fun a => Ok a) i r objs O Hi). split.
  - intros (oks & E & -> & F). split; [reflexivity|]. exists (map fst oks). split; [exact E|].
    clear E. induction F as [|o x oks xs (F1 & F2 & F3) F IH]; [constructor|].
    cbn [map]. constructor; [|exact IH]. injection F2 as <-. exact F1.
  - intros (-> & encs & -> & F).
    exists (combine encs objs).
    assert (E : map fst (combine encs objs) = encs).
    { clear - F. induction F as [|x y xs ys H F IH]; [reflexivity|]. cbn. rewrite IH. reflexivity. }
    rewrite E. repeat split. clear E. revert Hi.
    induction F as [|x y xs ys H F IH]; intros Hi; cbn [combine]; constructor.
    + cbn [fst snd]. cbn [concat] in Hi. apply bytes_ok_app in Hi as [Hx Hxs].
      repeat split; [exact H|]. destruct O as [_ O]. destruct (O _ _ _ Hx H) as (pre & -> & Hl & _).
      rewrite app_length. lia.
    + apply IH. cbn [concat] in Hi. apply bytes_ok_app in Hi. apply Hi.
Qed.
Print Assumptions C12_collect.

Example C12_case :
  exists a b, fst (iter_calls any_parse_ber 4 (iter_new [0x02; 0x01; 0x05; 0x05; 0x00; 0x04]))
    = [Some (Ok ([0x02; 0x01; 0x05], a)); Some (Ok ([0x05; 0x00], b));
       Some (Err (EIncomplete 1)); None].
Proof. eexists; eexists. vm_compute. reflexivity. Qed.
