(** C41 and C101 for the types one builds: containers, tagged types, tuples, structs and choices of one another. *)
From Verif Require Import Base MHeader MEncode MBer MInt MSeg MText MCont MColl MDerive MSpan SSpan PSpan PropSpan MTrace PropTrace PLog MKind PKind.
From Verif Require PropText.

(** ** C41

    Whatever is compiled in: without spans a value is what the parser without spans reads, what remains is the end of the
    input, and every [Input] in the value (raw headers and contents of [Any], however deep) carries its place in [whole], as
    does the [Input] of an error. *)
Theorem C41_types (c : config) {S U : Type} (t : kty S U) (whole : bytes) (i : input) :
  constant_defaults t -> blen whole < 2 ^ 64 -> located whole i ->
  let k := kparser_of c t in
  (forget (dataV (kbare t)) (snd (kp_parse_ber k i)) = ps_parse_ber (plain_of t) (in_data i)
   /\ (forall rem v, snd (kp_parse_ber k i) = SOk (rem, v) -> suffix whole i rem /\ Forall (located whole) (kinputs t v))
   /\ (forall at_ e, snd (kp_parse_ber k i) = SErr at_ e -> located whole at_))
  /\ (forget (dataV (kbare t)) (snd (kp_parse_der k i)) = ps_parse_der (plain_of t) (in_data i)
      /\ (forall rem v, snd (kp_parse_der k i) = SOk (rem, v) -> suffix whole i rem /\ Forall (located whole) (kinputs t v))
      /\ (forall at_ e, snd (kp_parse_der k i) = SErr at_ e -> located whole at_))
  /\ (forall rem v, snd (t_parse_ber_optional c (kp_contents k) i) = SOk (rem, Some v) \/ snd (t_parse_der_optional c (kp_contents k) i) = SOk (rem, Some v) ->
      suffix whole i rem /\ Forall (located whole) (kinputs t v))
  /\ (forall rem h data, snd (t_parse_ber_as_input c (kp_contents k) i) = SOk (rem, (h, data)) \/ snd (t_parse_der_as_input c (kp_contents k) i) = SOk (rem, (h, data)) ->
      object_layout whole i h data rem).
Proof.
  intros D W L k. destruct (proj1 (types_ok c whole W) S U t D) as (A & A0 & C & O). fold k in A, C, O.
  destruct (O i L) as [(_ & B & _) (_ & E & _)].
  split; [|split; [|split]].
  - split; [eapply sim_forget; exact B|]. split; [intros rem v Q; exact (sim_prop _ _ _ _ _ _ B Q) | intros at_ e Q; exact (sim_error _ _ _ _ _ _ _ B Q)].
  - split; [eapply sim_forget; exact E|]. split; [intros rem v Q; exact (sim_prop _ _ _ _ _ _ E Q) | intros at_ e Q; exact (sim_error _ _ _ _ _ _ _ E Q)].
  - destruct (optional_ber c whole W (kbare t) (inside whole (kinputs t)) (kp_contents k) (kp_contents (kparser_of (off c) t)) (plain_of t) A A0 C i L) as (_ & S1 & _).
    destruct (optional_der c whole W (kbare t) (inside whole (kinputs t)) (kp_contents k) (kp_contents (kparser_of (off c) t)) (plain_of t) A A0 C i L) as (_ & S2 & _).
    intros rem v [Q|Q]; [exact (sim_prop _ _ _ _ _ _ S1 Q) | exact (sim_prop _ _ _ _ _ _ S2 Q)].
  - destruct (as_input_ber c whole W (kp_contents k) (kp_contents (kparser_of (off c) t)) (plain_of t) A A0 i L) as (_ & S1 & _).
    destruct (as_input_der c whole W (kp_contents k) (kp_contents (kparser_of (off c) t)) (plain_of t) A A0 i L) as (_ & S2 & _).
    intros rem h data [Q|Q]; [exact (proj1 (sim_prop _ _ _ _ _ _ S1 Q)) | exact (proj1 (sim_prop _ _ _ _ _ _ S2 Q))].
Qed.
Print Assumptions C41_types.

(** ** C101

    The results with logging on are those with it off, in any build.  With both features off nothing is logged, and without
    [trace] nothing is logged about an object that is read, not even about the types tried on the way. *)
Theorem C101_types (c : config) {S U : Type} (t : kty S U) (whole : bytes) (i : input) :
  constant_defaults t -> blen whole < 2 ^ 64 -> located whole i ->
  let k := kparser_of c t in let q := kparser_of (off c) t in
  let quietly {A} (m : lres A) :=
    (cf_debug c = false -> cf_trace c = false -> fst m = []) /\ (cf_trace c = false -> forall r, snd m = SOk r -> fst m = []) in
  (snd (kp_parse_ber k i) = snd (kp_parse_ber q i) /\ quietly (kp_parse_ber k i))
  /\ (snd (kp_parse_der k i) = snd (kp_parse_der q i) /\ quietly (kp_parse_der k i))
  /\ (snd (t_parse_ber_optional c (kp_contents k) i) = snd (t_parse_ber_optional (off c) (kp_contents q) i) /\ quietly (t_parse_ber_optional c (kp_contents k) i))
  /\ (snd (t_parse_der_optional c (kp_contents k) i) = snd (t_parse_der_optional (off c) (kp_contents q) i) /\ quietly (t_parse_der_optional c (kp_contents k) i))
  /\ (snd (t_parse_ber_as_input c (kp_contents k) i) = snd (t_parse_ber_as_input (off c) (kp_contents q) i) /\ quietly (t_parse_ber_as_input c (kp_contents k) i))
  /\ (snd (t_parse_der_as_input c (kp_contents k) i) = snd (t_parse_der_as_input (off c) (kp_contents q) i) /\ quietly (t_parse_der_as_input c (kp_contents k) i)).
Proof.
  intros D W L k q quietly. destruct (proj1 (types_ok c whole W) S U t D) as (A & A0 & C & O). fold k in A, C, O. fold q in A0, C, O.
  assert (X: forall A B (f : A -> B) P m m0 r, rel c whole f P m m0 r -> snd m = snd m0 /\ quietly _ m).
  { intros X Y f P m m0 r (E & _ & N & _). split; [exact E|]. split.
    - intros D1 D2. apply N. left. unfold debugging. rewrite D1, D2. reflexivity.
    - intros D2 x Hx. apply N. right. eauto. }
  destruct (O i L) as [B E].
  split; [eapply X; exact B|]. split; [eapply X; exact E|].
  split; [eapply X; exact (optional_ber c whole W (kbare t) (inside whole (kinputs t)) (kp_contents k) (kp_contents q) (plain_of t) A A0 C i L)|].
  split; [eapply X; exact (optional_der c whole W (kbare t) (inside whole (kinputs t)) (kp_contents k) (kp_contents q) (plain_of t) A A0 C i L)|].
  split; [eapply X; exact (as_input_ber c whole W (kp_contents k) (kp_contents q) (plain_of t) A A0 i L)|].
  eapply X; exact (as_input_der c whole W (kp_contents k) (kp_contents q) (plain_of t) A A0 i L).
Qed.
Print Assumptions C101_types.

(** The whole log with [debug]: with [trace] every function that is entered leaves or reports, with the calls it makes in between;
    without it there are only reports; a report shows the octets of the input at the place it names.  A type that fails ends its
    log with a report of that failure at the start of its input. *)
Lemma traced_type c {S U} (t : kty S U) :
  exists s s' f f', kp_parse_ber (kparser_of c t) = trace_input c s f /\ kp_parse_der (kparser_of c t) = trace_input c s' f'.
Proof. destruct t as [| | | | | | | | | |S U [[|] cl n] t| | | | |]; do 4 eexists; split; reflexivity. Qed.
Theorem C101_shape (c : config) {S U : Type} (t : kty S U) (whole : bytes) (i : input) :
  constant_defaults t -> bytes_ok whole -> blen whole < 2 ^ 64 -> located whole i -> cf_debug c = true ->
  let k := kparser_of c t in
  let shaped {A} (m : lres A) := snd m <> SPanic -> if cf_trace c then bracketed whole (fst m) else reports whole (fst m) in
  (shaped (kp_parse_ber k i) /\ shaped (kp_parse_der k i)
   /\ shaped (t_parse_ber_optional c (kp_contents k) i) /\ shaped (t_parse_der_optional c (kp_contents k) i)
   /\ shaped (t_parse_ber_as_input c (kp_contents k) i) /\ shaped (t_parse_der_as_input c (kp_contents k) i))
  /\ (forall at_ e, snd (kp_parse_ber k i) = SErr at_ e ->
      exists before s, fst (kp_parse_ber k i) = before ++ LFailed s (in_start i) e :: dump_of (in_data i))
  /\ (forall at_ e, snd (kp_parse_der k i) = SErr at_ e ->
      exists before s, fst (kp_parse_der k i) = before ++ LFailed s (in_start i) e :: dump_of (in_data i)).
Proof.
  intros D By W L Dc k sh. destruct (proj1 (types_ok c whole W) S U t D) as (A & A0 & C & O). fold k in A, C, O.
  set (q := kparser_of (off c) t) in *.
  assert (X: forall A B (f : A -> B) P m m0 r, rel c whole f P m m0 r -> sh _ m).
  { intros X Y f P m m0 r (_ & _ & _ & G) N. specialize (G Dc By N). unfold shape in G. destruct (cf_trace c); exact G. }
  destruct (O i L) as [B E]. split.
  - split; [eapply X; exact B|]. split; [eapply X; exact E|].
    split; [eapply X; exact (optional_ber c whole W (kbare t) (inside whole (kinputs t)) (kp_contents k) (kp_contents q) (plain_of t) A A0 C i L)|].
    split; [eapply X; exact (optional_der c whole W (kbare t) (inside whole (kinputs t)) (kp_contents k) (kp_contents q) (plain_of t) A A0 C i L)|].
    split; [eapply X; exact (as_input_ber c whole W (kp_contents k) (kp_contents q) (plain_of t) A A0 i L)|].
    eapply X; exact (as_input_der c whole W (kp_contents k) (kp_contents q) (plain_of t) A A0 i L).
  - destruct (traced_type c t) as (s & s' & f & f' & T & T'). fold k in T, T'.
    assert (Y: forall s f, forall at_ e, snd (trace_input c s f i) = SErr at_ e ->
      exists before s2, fst (trace_input (T := S) c s f i) = before ++ LFailed s2 (in_start i) e :: dump_of (in_data i)).
    { intros s1 f1 at_ e Q. rewrite trace_result in Q.
      assert (Q2: snd (f1 i) = SErr at_ e) by (unfold checked in Q; destruct (snd (f1 i)) as [[rem x]| | |]; [destruct (_ && _); discriminate | exact Q..]).
      destruct (C101_log c s1 f1 whole i By W L Dc) as (E1 & _). rewrite (E1 at_ e Q2). cbn [fst]. rewrite app_assoc. eauto. }
    rewrite T, T'. split; apply Y.
Qed.
Print Assumptions C101_shape.

(** The string types of C19, C20 and C22 are among the types: with the log of their segments they read what they read without. *)
Theorem C41_strings (h : header) (i : bytes) :
  (ps_ber_content (plain_of KOctets) h i = octet_ber_content h i /\ ps_der_content (plain_of KOctets) h i = octet_der_content h i)
  /\ (ps_ber_content (plain_of KBits) h i = bitstring_ber_content h i /\ ps_der_content (plain_of KBits) h i = bitstring_der_content h i)
  /\ (forall k, ps_ber_content (plain_of (KText k)) h i = string_ber_content k h i /\ ps_der_content (plain_of (KText k)) h i = string_der_content k h i)
  /\ (ps_ber_content (plain_of (KText Utf8)) h i = ber_content ostring_codec h i /\ ps_der_content (plain_of (KText Utf8)) h i = der_content ostring_codec h i)
  /\ (forall t, ps_accept (plain_of KOctets) t = (t =? 4) /\ ps_accept (plain_of KBits) t = (t =? 3)
        /\ forall k, ps_accept (plain_of (KText k)) t = (t =? PropText.universal_string_tag k)).
Proof.
  assert (E: forall A (r : res (bytes * A)), (let* (rem, d) := r in let* x := Ok d in Ok (rem, x)) = r) by (intros A [[? ?]| | |]; reflexivity).
  assert (O: string_ber octets (fun d => Ok d) h i = octet_ber_content h i).
  { unfold string_ber. rewrite E. unfold octet_ber_content. destruct (negb _); reflexivity. }
  assert (B: string_ber bits (fun d => Ok d) h i = bitstring_ber_content h i).
  { unfold string_ber. rewrite E. unfold bitstring_ber_content. destruct (negb _); reflexivity. }
  assert (T: forall k, string_ber octets (text k) h i = string_ber_content k h i).
  { intros k. unfold string_ber, string_ber_content, text, octet_segmented, octet_prim. cbn [octets sg_prim sg_accept sg_default sg_append sg_limit].
    destruct (if negb _ then _ else _) as [[r d]| | |]; try reflexivity. cbn [bind]. destruct (test_valid_charset k d); try reflexivity. cbn [bind].
    destruct (from_utf8 d); reflexivity. }
  cbn [plain_of KOctets KBits KText string_parser default_parser ps_ber_content ps_der_content codec_parser ber_content der_content].
  rewrite O, B. split; [split; reflexivity|]. split; [split; reflexivity|]. split.
  - intros k. rewrite T. split; reflexivity.
  - split; [|intros t; split; [reflexivity | split; [reflexivity | intros []; reflexivity]]].
    rewrite T. split; [reflexivity|]. cbn [ostring_codec ber_content der_content]. unfold str_der_content, string_ber_content.
    destruct (assert_primitive h) as [u| | |] eqn:P; try reflexivity. cbn [bind]. unfold assert_primitive in P. destruct (h_constructed h); [discriminate|]. cbn [negb bind].
    unfold test_valid_charset. destruct (from_utf8 i); reflexivity.
Qed.
Print Assumptions C41_strings.

(** The function named in the first line of a log and, when the function fails, in the last message. *)
Definition named (c : config) (s : site) (i : input) {A} (m : lres A) : Prop :=
  (tracing c = true -> hd_error (fst m) = Some (LEnter s (in_start i) (blen (in_data i))))
  /\ (debugging c = true -> forall at_ e, snd m = SErr at_ e -> exists before, fst m = before ++ LFailed s (in_start i) e :: hex_dump (in_data i) 16)
  /\ (debugging c = true -> forall n, snd m = SIncomplete n -> exists before, fst m = before ++ LMissing s (in_start i) n :: hex_dump (in_data i) 16).
Lemma trace_named {A} c s (f : input -> lres (input * A)) i : named c s i (trace_input c s f i).
Proof.
  assert (E: tracing c = true -> debugging c = true) by (unfold tracing, debugging; destruct (cf_debug c), (cf_trace c); auto).
  unfold named, trace_input. destruct (debugging c) eqn:D; cbv zeta.
  - split; [|split].
    + intros T. rewrite T. destruct (snd (f i)) as [[r x]| | |]; [destruct (_ && _)|..]; reflexivity.
    + intros _ at_ e. destruct (snd (f i)) as [[r x]| | |]; [destruct (_ && _); discriminate| |discriminate..].
      cbn [fst snd]. intros Q. injection Q as <- <-. rewrite app_assoc. eauto.
    + intros _ n. destruct (snd (f i)) as [[r x]| | |]; [destruct (_ && _); discriminate|discriminate| |discriminate].
      cbn [fst snd]. intros Q. injection Q as <-. rewrite app_assoc. eauto.
  - split; [intros T; specialize (E T); discriminate | split; discriminate].
Qed.
Theorem C101_names c (i : input) :
  named c AtHeader i (t_header c i) /\ named c AtHeader i (t_header_der c i)
  /\ named c AtAny i (t_parse_ber_any c i) /\ named c AtAny i (t_parse_der_any c i)
  /\ (forall T (p : tparser T), named c AtBerParse i (t_parse_ber c p i) /\ named c AtDerParse i (t_parse_der c p i)
      /\ named c AtBerInput i (t_parse_ber_as_input c p i) /\ named c AtDerInput i (t_parse_der_as_input c p i)
      /\ named c AtOptionBer i (t_option_parse_ber c p i) /\ named c AtOptionDer i (t_option_parse_der c p i))
  /\ (forall h, named c AtInteger i (t_integer_ber c h i)).
Proof. repeat (first [apply trace_named | split | intros ?]). Qed.
Print Assumptions C101_names.

(** ** A case

    SEQUENCE { first ANY, version [0] EXPLICIT INTEGER OPTIONAL, flag BOOLEAN DEFAULT TRUE, items SET OF CHOICE { INTEGER, ANY } }
    at the third octet of a longer input; then with a fault in the last item. *)
Definition example_type :=
  KStruct false (KField KAny
    (KTaggedOption (mk_tagging KExplicit ContextSpecific 0) KInteger
    (KDefault true (KPlain bool_codec)
    (KField (KSetOf (KChoice None (KVariant 0 KInteger (KVariant 0 KAny KEmpty)))) KNil)))).
Definition example_whole : bytes := [5; 0; 48; 16; 4; 1; 170; 160; 3; 2; 1; 5; 49; 6; 2; 1; 7; 4; 1; 9; 5; 0].
Definition example_input : input := mk_input (skipn 2 example_whole) 2 22.
Definition example_bad : bytes := [48; 16; 4; 1; 170; 160; 3; 2; 1; 5; 49; 6; 2; 1; 7; 4; 3; 9].

Example C41_types_case : constant_defaults example_type /\ blen example_whole < 2 ^ 64 /\ located example_whole example_input
  /\ (forall c, exists a b,
     snd (kp_parse_ber (kparser_of c example_type) example_input) = SOk (mk_input [5; 0] 20 22, (a, (Some [5], (true, ([inl [7]; inr (inl b)], tt)))))
     /\ sa_data a = mk_input [170] 6 7 /\ raw_of (sa_header a) = [mk_input [4; 1] 4 6]
     /\ sa_data b = mk_input [9] 19 20 /\ raw_of (sa_header b) = [mk_input [4; 1] 17 19])
  /\ (forall c, exists e, snd (kp_parse_ber (kparser_of c example_type) (from_slice example_bad)) = SErr (mk_input [4; 3; 9] 15 18) e).
Proof.
  split; [repeat split|]. split; [reflexivity|]. split.
  - exists [5; 0], []. repeat split.
  - split.
    + intros [[] [] []]; do 2 eexists; (split; [vm_compute; reflexivity|]); repeat split.
    + intros [[] [] []]; eexists; vm_compute; reflexivity.
Qed.
Example C101_types_case :
  (forall asserts, fst (kp_parse_ber (kparser_of (mk_config true false asserts) example_type) example_input) = [])
  /\ (forall asserts, fst (kp_parse_ber (kparser_of (mk_config false false asserts) example_type) (from_slice example_bad)) = [])
  /\ (forall asserts, length (fst (kp_parse_ber (kparser_of (mk_config true false asserts) example_type) (from_slice example_bad))) <> 0%nat).
Proof. split; [|split]; intros []; vm_compute; congruence. Qed.
(** One INTEGER in a SEQUENCE OF, cut short, at the third octet of a longer input. *)
Example C101_shape_case :
  let whole := [5; 0; 48; 3; 2; 2; 1; 9] in let i := mk_input [48; 3; 2; 2; 1; 9] 2 8 in
  bytes_ok whole /\ located whole i
  /\ fst (kp_parse_ber (kparser_of (mk_config true false true) (KVec KInteger)) i)
     = [LMissing AtBerParse 4 1; LDump [48; 50; 32; 48; 50; 32; 48; 49]; LFailed AtBerContent 4 (EIncomplete 1);
        LDump [48; 50; 32; 48; 50; 32; 48; 49]; LFailed AtBerParse 2 (EIncomplete 1); LDump [51; 48; 32; 48; 51; 32; 48; 50; 32; 48; 50; 32; 48; 49; 32; 48; 57]].
Proof.
  cbv zeta. split; [repeat constructor|]. split; [exists [5; 0], []; repeat split|]. vm_compute. reflexivity.
Qed.

(** A constructed OCTET STRING of two segments, the second one constructed and cut short. *)
Example C41_strings_case :
  ps_parse_ber (plain_of KOctets) [36; 7; 4; 1; 170; 36; 2; 4; 0] = Ok ([], [170])
  /\ snd (kp_parse_ber (kparser_of (mk_config true true true) KOctets) (mk_input [36; 8; 4; 1; 170; 36; 3; 4; 1; 187] 2 12)) = SOk (mk_input [] 12 12, [170; 187])
  /\ fst (kp_parse_ber (kparser_of (mk_config true false true) KOctets) (mk_input [36; 7; 4; 1; 170; 36; 2; 4; 1] 2 11))
     = [LMissing AtBerParse 9 1; LDump [48; 52; 32; 48; 49]; LFailed AtBerContent 4 (EIncomplete 1);
        LDump [48; 52; 32; 48; 49; 32; 97; 97; 32; 50; 52; 32; 48; 50; 32; 48; 52; 32; 48; 49];
        LFailed AtBerParse 2 (EIncomplete 1);
        LDump [50; 52; 32; 48; 55; 32; 48; 52; 32; 48; 49; 32; 97; 97; 32; 50; 52; 32; 48; 50; 32; 48; 52; 32; 48; 49]].
Proof. vm_compute. repeat split. Qed.
Example C101_names_case : forall asserts, debugging (mk_config true true asserts) = true
  /\ hd_error (fst (t_header (mk_config true true asserts) example_input)) = Some (LEnter AtHeader 2 20).
Proof. intros []; split; vm_compute; reflexivity. Qed.
