(** Properties of the character strings: C32, C33, C34, C50. *)
From Verif Require Import Base MHeader MEncode SHeader PArith PHeader PEncode MBer SBer PBer PIter
  MInt SInt PCodec PInt PropInt MSeg SSeg PSeg PBits PropSeg MText SText PText.

(** Acceptance by the four parsers of a codec that is primitive in DER. *)
Lemma text_accept (p : codec (list N)) tag (Q : bool -> bytes -> list N -> Prop) i rem s :
  plain p -> (forall x, accept_tag p x = is_tag tag x) ->
  (forall h d s, bytes_ok d -> fits h d -> ((exists r, ber_content p h d = Ok (r, s)) <-> Q (h_constructed h) d s)) ->
  (forall h d s, bytes_ok d -> h_length h = Definite (blen d) ->
     ((exists r, der_content p h d = Ok (r, s)) <-> h_constructed h = false /\ Q false d s)) ->
  (forall a, check_constraints p a = check_primitive a) ->
  bytes_ok i ->
  let ber := exists c k content, starts_with_ber_object c k tag content i rem /\ Q k content s in
  let der := exists c content, starts_with_object c false tag content i rem /\ Q false content s in
  (parse_ber p i = Ok (rem, s) <-> ber) /\ (from_ber p i = Ok (rem, s) <-> ber)
  /\ (parse_der p i = Ok (rem, s) <-> der) /\ (from_der p i = Ok (rem, s) <-> der).
Proof.
  intros Hp Ha Hb Hd Hc Hi. cbv zeta. rewrite from_ber_parse_ber by assumption.
  assert (B : parse_ber p i = Ok (rem, s) <-> exists c k content, starts_with_ber_object c k tag content i rem /\ Q k content s).
  { rewrite <- (ex_eq (fun v => parse_ber p i = Ok (rem, v))).
    apply (parse_ber_spec p tag (fun x => x) Q); [exact Ha| |exact Hi].
    intros h d v Hok Hf. rewrite <- Hb by assumption. split; [intros (r & t & E & ->); eauto|intros [r E]; eauto]. }
  assert (G : (exists c k content, starts_with_object c k tag content i rem /\ (k = false /\ Q false content s))
      <-> exists c content, starts_with_object c false tag content i rem /\ Q false content s).
  { split; [intros (c & k & d & H & -> & H'); eauto|intros (c & d & H & H'); eauto 8]. }
  split; [exact B|]. split; [exact B|]. split.
  - rewrite (parse_der_spec p tag (fun k d v => k = false /\ Q false d v)); [exact G|exact Ha|exact Hd|exact Hi].
  - rewrite (from_der_spec p tag (fun k d v => k = false /\ Q false d v)); [exact G|exact Hp|exact Ha| |exact Hi].
    intros h d v Hok Hl. rewrite Hc, Hb; [|exact Hok|unfold fits; rewrite Hl; reflexivity].
    unfold check_primitive, assert_primitive. cbn [any_header]. destruct (h_constructed h).
    + split; [intros [E _]; discriminate|intros [E _]; discriminate].
    + split; intros [_ H]; auto.
Qed.

Lemma octets_data h d o :
  bytes_ok d -> fits h d ->
  ((exists r, (if negb (h_constructed h) then Ok ([], d) else octet_segmented h d) = Ok (r, o))
   <-> string_octets (h_constructed h) d o).
Proof.
  intros Hd Hf. unfold string_octets. assert (E := octet_content_iff h d o Hd Hf).
  unfold octet_ber_content, octet_prim, octets_value in E. destruct (h_constructed h); cbn [negb] in *.
  - split.
    + intros [r H]. right. split; [reflexivity|]. destruct (proj1 E) as [[? _]|[_ S]]; [eauto|discriminate|exact S].
    + intros [[? _]|[_ S]]; [discriminate|]. destruct (proj2 E) as (r & t & H & <-); [right; auto|eauto].
  - split; [intros [r H]; injection H as <- <-; auto|intros [[_ ->]|[? _]]; [eauto|discriminate]].
Qed.

(** Octets of a constructed string are bytes. *)
Lemma seg_octets_ok d k content v : seg 4 octets_value d k content v -> bytes_ok content -> bytes_ok v.
Proof.
  intros H. revert d k content v H.
  apply (seg_ind' N 4 octets_value
    (fun d k content v _ => bytes_ok content -> bytes_ok v) (fun d content v _ => bytes_ok content -> bytes_ok v)).
  - intros d content v _ -> Hok. exact Hok.
  - intros d content v _ _ IH. exact IH.
  - intros; constructor.
  - intros; constructor.
  - intros d c k t l idb lenb bs rest v HR HC Ht Hc _ IH Hok. apply IH. rewrite !bytes_ok_app in Hok. tauto.
  - intros d c k t l idb lenb bs rest v vs HR HC Ht _ IH1 _ IH2 Hok. rewrite !bytes_ok_app in Hok. apply bytes_ok_app.
    split; [apply IH1; apply content_of_ok; tauto|apply IH2; tauto].
Qed.

Lemma string_octets_ok k d o : bytes_ok d -> string_octets k d o -> bytes_ok o.
Proof. intros Hd [[_ ->]|[_ H]]; [exact Hd|]. eapply seg_octets_ok; eassumption. Qed.

(** ** C32: restricted strings *)

(** The alphabets of the standard for NumericString, PrintableString, IA5String and VisibleString; for the
    others, whose repertoire is a register of character sets, the part this crate supports. *)
Definition alphabet (k : string_kind) (c : N) : Prop :=
  match k with
  | Numeric => In c numeric_alphabet
  | Printable => In c printable_alphabet
  | Ia5 | General | Graphic | ObjDescriptor => ascii_char c
  | Teletex | Videotex => 32 <= c <= 127
  | Visible => visible_char c
  | Utf8 => False
  end.
(** Octets read as a text: each octet is a character of [A]. *)
Definition octets_text (A : N -> Prop) (o s : list N) : Prop := s = o /\ Forall A o.
Definition universal_string_tag (k : string_kind) : N :=
  match k with
  | Utf8 => 12 | Numeric => 18 | Printable => 19 | Teletex => 20 | Videotex => 21 | Ia5 => 22
  | Graphic => 25 | Visible => 26 | General => 27 | ObjDescriptor => 7
  end.

(** The four parsers of a type. *)
Definition accepts_text (p : codec (list N)) (tag : N) (R : bytes -> list N -> Prop) : Prop :=
  forall i rem s, bytes_ok i ->
    (parse_ber p i = Ok (rem, s) <-> text_input tag R i rem s)
    /\ (from_ber p i = Ok (rem, s) <-> text_input tag R i rem s)
    /\ (parse_der p i = Ok (rem, s) <-> primitive_text_input tag R i rem s)
    /\ (from_der p i = Ok (rem, s) <-> primitive_text_input tag R i rem s).

Lemma kind_tag_eq k : kind_tag k = universal_string_tag k.
Proof. destruct k; reflexivity. Qed.

Lemma string_content_iff k (R : bytes -> list N -> Prop) h d s :
  (forall o s, bytes_ok o -> ((test_valid_charset k o = Ok tt /\ from_utf8 o = Some s) <-> R o s)) ->
  bytes_ok d -> fits h d ->
  ((exists r, string_ber_content k h d = Ok (r, s)) <-> exists o, string_octets (h_constructed h) d o /\ R o s).
Proof.
  intros HR Hd Hf. unfold string_ber_content. split.
  - intros [r E]. apply bind_ok in E as ([r' o] & E1 & E). apply bind_ok in E as ([] & E2 & E).
    assert (So : string_octets (h_constructed h) d o) by (apply octets_data; eauto).
    exists o. split; [exact So|]. apply HR; [eapply string_octets_ok; eassumption|].
    destruct (from_utf8 o); [|discriminate]. injection E as <- <-. auto.
  - intros (o & So & H). assert (Hok := string_octets_ok _ _ _ Hd So). apply HR in H as [E2 E3]; [|exact Hok].
    apply octets_data in So as [r E1]; [|exact Hd|exact Hf]. exists r. rewrite E1. cbn [bind]. rewrite E2. cbn [bind].
    rewrite E3. reflexivity.
Qed.

Lemma string_accept k (R : bytes -> list N -> Prop) :
  (forall o s, bytes_ok o -> ((test_valid_charset k o = Ok tt /\ from_utf8 o = Some s) <-> R o s)) ->
  accepts_text (string_codec k) (kind_tag k) R.
Proof.
  intros HR i rem s Hi.
  pose proof (text_accept (string_codec k) (kind_tag k) (fun c d s => exists o, string_octets c d o /\ R o s) i rem s) as T.
  cbv zeta in T. destruct T as (A & B & C & D).
  - intros a; reflexivity.
  - reflexivity.
  - intros h d v Hd Hf. apply string_content_iff; assumption.
  - intros h d v Hd Hl. cbn [der_content string_codec]. unfold string_der_content, assert_primitive.
    destruct (h_constructed h) eqn:K; cbn [bind]; [split; [intros [r E]; discriminate|intros [E _]; discriminate]|].
    rewrite (string_content_iff k R); [|exact HR|exact Hd|unfold fits; rewrite Hl; reflexivity]. rewrite K. tauto.
  - reflexivity.
  - exact Hi.
  - assert (E1 : (exists c k0 content, starts_with_ber_object c k0 (kind_tag k) content i rem
        /\ exists o, string_octets k0 content o /\ R o s) <-> text_input (kind_tag k) R i rem s).
    { unfold text_input. split; [intros (c & k0 & d & H & o & H1 & H2)|intros (c & k0 & d & o & H & H1 & H2)]; eauto 10. }
    assert (E2 : (exists c content, starts_with_object c false (kind_tag k) content i rem
        /\ exists o, string_octets false content o /\ R o s) <-> primitive_text_input (kind_tag k) R i rem s).
    { unfold primitive_text_input, string_octets. split.
      - intros (c & d & H & o & [[_ ->]|[? _]] & H2); [eauto|discriminate].
      - intros (c & d & H & H2). exists c, d. split; [exact H|]. exists d. auto. }
    rewrite E1 in A, B. rewrite E2 in C, D. auto.
Qed.

Lemma all_bytes (p : N -> bool) (A : N -> Prop) o s :
  (forall b, b < 256 -> (p b = true <-> A b)) -> (forall b, A b -> b < 128) -> bytes_ok o ->
  (((if forallb p o then Ok tt else Err EStringInvalidCharset) = Ok tt /\ from_utf8 o = Some s) <-> octets_text A o s).
Proof.
  intros H1 H2 Hok. unfold octets_text. destruct (forallb p o) eqn:E.
  - rewrite forallb_forall in E. unfold bytes_ok in Hok. rewrite Forall_forall in Hok.
    assert (F : Forall A o) by (apply Forall_forall; intros x Hx; apply H1; [apply Hok; exact Hx|apply E; exact Hx]).
    rewrite ascii_from_utf8; [|eapply Forall_impl; [|exact F]; exact H2].
    split; [intros [_ H]; injection H as <-; auto|intros [-> _]; auto].
  - split; [intros [? _]; discriminate|]. intros [_ F]. exfalso.
    assert (forallb p o = true); [|congruence]. apply forallb_forall. intros x Hx. unfold bytes_ok in Hok.
    rewrite Forall_forall in F, Hok. apply H1; auto.
Qed.

Lemma alphabet_127 k b : alphabet k b -> b < 128.
Proof.
  destruct k; cbn [alphabet]; unfold ascii_char, visible_char; try (intros; lia).
  - intros H. assert (F : Forall (fun c => c < 128) numeric_alphabet) by (repeat constructor). rewrite Forall_forall in F. auto.
  - intros H. assert (F : Forall (fun c => c < 128) printable_alphabet) by (repeat constructor). rewrite Forall_forall in F. auto.
Qed.

(** The alphabets as enforced: VisibleString also takes DEL (127). *)
Definition enforced (k : string_kind) (c : N) : Prop := alphabet k c \/ k = Visible /\ c = 127.

Lemma charset_iff k o s :
  k <> Utf8 -> bytes_ok o ->
  ((test_valid_charset k o = Ok tt /\ from_utf8 o = Some s) <-> octets_text (enforced k) o s).
Proof.
  intros Hk Ho.
  assert (H127 : forall b, enforced k b -> b < 128) by (intros b [H|[_ ->]]; [eapply alphabet_127; exact H|lia]).
  destruct k; try congruence; cbn [test_valid_charset]; apply all_bytes; try assumption; intros b Hb;
    unfold enforced, alphabet, ascii_char, visible_char, is_ascii, is_visible;
    rewrite ?numeric_alphabet_iff, ?printable_alphabet_iff, ?N.ltb_lt, ?andb_true_iff, ?N.leb_le by exact Hb;
    (destruct (N.eq_dec b 127) as [Eb|Eb]); split; intros H;
    try (first [left; exact H|left; lia|right; split; [reflexivity|exact Eb]]);
    (destruct H as [H|[H H']]; [first [exact H|lia]|first [discriminate|lia]]).
Qed.

(** For every type but VisibleString the parsers return exactly the strings over the alphabet, as they are. *)
Theorem C32_alphabet_partial (k : string_kind) :
  k <> Visible -> k <> Utf8 ->
  accepts_text (string_codec k) (universal_string_tag k) (octets_text (alphabet k)).
Proof.
  intros Hv Hk. rewrite <- kind_tag_eq. apply string_accept. intros o s Ho. rewrite charset_iff by assumption.
  unfold octets_text, enforced. split; intros [E F]; (split; [exact E|]); (eapply Forall_impl; [|exact F]); cbn; tauto.
Qed.
Print Assumptions C32_alphabet_partial.

(** VisibleString takes DEL besides its alphabet. *)
Theorem C32_visible_partial :
  accepts_text (string_codec Visible) 26 (octets_text (fun c => visible_char c \/ c = 127)).
Proof.
  apply (string_accept Visible). intros o s Ho. rewrite charset_iff by (try exact Ho; discriminate).
  unfold octets_text, enforced. cbn [alphabet].
  split; intros [E F]; (split; [exact E|]); (eapply Forall_impl; [|exact F]); cbn; tauto.
Qed.
Print Assumptions C32_visible_partial.

Theorem C32_visible_refuted :
  exists i s, from_der (string_codec Visible) i = Ok ([], s) /\ ~ Forall visible_char s.
Proof.
  exists [0x1a; 0x01; 0x7f], [127]. split; [vm_compute; reflexivity|]. intros F. inversion F; subst. unfold visible_char in *. lia.
Qed.
Print Assumptions C32_visible_refuted.

(** A string over the alphabet round trips. *)
Lemma text_roundtrip (p : codec (list N)) tag R w cb s :
  accepts_text p tag R -> writes w Universal false tag cb -> R cb s -> bytes_ok cb -> blen cb < 2 ^ 64 ->
  tag < 2 ^ 32 ->
  exists enc, to_vec w = Ok enc /\ reads_ber p enc s /\ reads_der p enc s.
Proof.
  intros A W HR Hok Hn Ht. destruct (encode_writes _ _ _ _ _ W Ht Hn) as (idb & lenb & E & _ & _ & _ & RH).
  exists (idb ++ lenb ++ cb). split; [unfold to_vec; rewrite E; reflexivity|].
  assert (Hi : forall x, bytes_ok x -> bytes_ok ((idb ++ lenb ++ cb) ++ x)).
  { intros x Hx. apply readable_ok in RH. rewrite !bytes_ok_app in *. tauto. }
  assert (O : forall x, starts_with_object Universal false tag cb ((idb ++ lenb ++ cb) ++ x) x).
  { intros x. exists tag, idb, lenb. split; [exact RH|]. split; [apply N.mod_small; exact Ht|]. rewrite <- !app_assoc. reflexivity. }
  assert (OB : forall x, starts_with_ber_object Universal false tag cb ((idb ++ lenb ++ cb) ++ x) x).
  { intros x. exists tag, (Definite (blen cb)), idb, lenb, cb. split; [exact RH|]. split; [apply N.mod_small; exact Ht|].
    split; [rewrite <- !app_assoc; reflexivity|]. split; [constructor; reflexivity|reflexivity]. }
  split; intros x Hx; destruct (A _ x s (Hi x Hx)) as (A1 & A2 & A3 & A4).
  - rewrite A1, A2. split; exists Universal, false, cb, cb; (split; [apply OB|]; split; [left; auto|exact HR]).
  - rewrite A3, A4. split; exists Universal, cb; (split; [apply O|exact HR]).
Qed.

Theorem C32_roundtrip_partial (k : string_kind) (s : list N) :
  k <> Utf8 -> Forall (alphabet k) s -> blen s < 2 ^ 64 ->
  exists enc, to_vec (tober_string k s) = Ok enc
    /\ reads_ber (string_codec k) enc s /\ reads_der (string_codec k) enc s.
Proof.
  intros Hk Hs Hn.
  assert (F : Forall (fun c => c < 128) s) by (eapply Forall_impl; [|exact Hs]; apply alphabet_127).
  apply (text_roundtrip _ (kind_tag k) (octets_text (enforced k)) _ s).
  - apply string_accept. intros o t Ho. apply charset_iff; assumption.
  - unfold tober_string. rewrite ascii_str_bytes by exact F. repeat split.
  - split; [reflexivity|]. eapply Forall_impl; [|exact Hs]. intros c Hc. left. exact Hc.
  - unfold bytes_ok. eapply Forall_impl; [|exact F]. cbn. intros; lia.
  - exact Hn.
  - destruct k; reflexivity.
Qed.
Print Assumptions C32_roundtrip_partial.

(** Missing: the constructors check nothing, so that a string outside the alphabet is written and then not
    read ("a*" as a NumericString). *)
Theorem C32_unchecked_refuted :
  exists k s enc, is_text s /\ to_vec (tober_string k s) = Ok enc /\ from_der (string_codec k) enc = Err EStringInvalidCharset.
Proof.
  exists Numeric, [97; 42], [0x12; 0x02; 0x61; 0x2a]. split; [repeat constructor; unfold scalar; lia|]. split; vm_compute; reflexivity.
Qed.
Print Assumptions C32_unchecked_refuted.

Example C32_case :
  from_ber (string_codec Printable) [0x33; 0x80; 0x04; 0x02; 0x41; 0x62; 0x04; 0x01; 0x3f; 0x00; 0x00; 0x05]
    = Ok ([0x05], [0x41; 0x62; 0x3f])
  /\ from_ber (string_codec Printable) [0x13; 0x01; 0x2a] = Err EStringInvalidCharset
  /\ Forall (alphabet Printable) [0x41; 0x62; 0x3f].
Proof.
  split; [vm_compute; reflexivity|]. split; [vm_compute; reflexivity|]. repeat constructor; cbn; tauto.
Qed.

(** ** C34: UTF8String, [&str], [String] *)

Lemma utf8_charset o s : (test_valid_charset Utf8 o = Ok tt /\ from_utf8 o = Some s) <-> utf8 s o.
Proof.
  rewrite <- from_utf8_iff. cbn [test_valid_charset]. split; [tauto|]. intros ->. auto.
Qed.

Theorem C34_utf8_accept :
  accepts_text (string_codec Utf8) 12 (fun o s => utf8 s o)
  /\ accepts_text ostring_codec 12 (fun o s => utf8 s o)
  /\ forall i rem s, bytes_ok i ->
       let accepted := primitive_text_input 12 (fun o s => utf8 s o) i rem s in
       (parse_ber str_codec i = Ok (rem, s) <-> accepted) /\ (from_ber str_codec i = Ok (rem, s) <-> accepted)
       /\ (parse_der str_codec i = Ok (rem, s) <-> accepted) /\ (from_der str_codec i = Ok (rem, s) <-> accepted).
Proof.
  assert (S1 : accepts_text (string_codec Utf8) 12 (fun o s => utf8 s o)).
  { apply (string_accept Utf8). intros o s _. apply utf8_charset. }
  split; [exact S1|]. split.
  - intros i rem s Hi. destruct (S1 i rem s Hi) as (A & B & C & D).
    assert (E : forall p q : codec (list N), (forall x, accept_tag p x = accept_tag q x) ->
       (forall h d, (exists r, der_content p h d = Ok (r, s)) -> (exists r, der_content q h d = Ok (r, s))) ->
       parse_der p i = Ok (rem, s) -> parse_der q i = Ok (rem, s)).
    { intros p q H1 H2. rewrite !parse_der_iff by exact Hi.
      intros (c & k & t & idb & lenb & bs & r & HR & E & Ha & P). rewrite H1 in Ha.
      destruct (H2 _ _ (ex_intro _ r P)) as [r' P']. exists c, k, t, idb, lenb, bs, r'. auto. }
    change (parse_ber ostring_codec i) with (parse_ber (string_codec Utf8) i).
    change (from_ber ostring_codec i) with (from_ber (string_codec Utf8) i).
    change (from_der ostring_codec i) with (from_der (string_codec Utf8) i).
    split; [exact A|]. split; [exact B|]. split; [|exact D]. rewrite <- C. split; (apply E; [reflexivity|]);
    intros h d; cbn [der_content ostring_codec string_codec]; unfold str_der_content, string_der_content, assert_primitive;
    (destruct (h_constructed h) eqn:K; cbn [bind]; [tauto|]); unfold string_ber_content; rewrite K; cbn [negb bind test_valid_charset];
    destruct (from_utf8 d); cbn [bind]; tauto.
  - intros i rem s Hi. cbv zeta.
    pose proof (text_accept str_codec 12 (fun c d s => c = false /\ utf8 s d) i rem s) as T. cbv zeta in T.
    assert (G : forall d (s0 : list N), (exists r : bytes, match from_utf8 d with Some s => Ok ([], s) | None => Err EStringInvalidCharset end = Ok (r, s0)) <-> utf8 s0 d).
    { intros d s0. rewrite <- from_utf8_iff. destruct (from_utf8 d) as [t|].
      - split; [intros [r E]; injection E as <- <-; reflexivity|intros E; injection E as <-; eauto].
      - split; [intros [r E]; discriminate|discriminate]. }
    destruct T as (A & B & C & D).
    + intros a; reflexivity.
    + reflexivity.
    + intros h d v _ _. cbn [ber_content str_codec]. unfold str_ber_content. destruct (h_constructed h).
      * split; [intros [r E]; discriminate|intros [E _]; discriminate].
      * rewrite G. tauto.
    + intros h d v _ _. cbn [der_content str_codec]. unfold str_der_content, assert_primitive.
      destruct (h_constructed h); cbn [bind].
      * split; [intros [r E]; discriminate|intros [E _]; discriminate].
      * rewrite G. tauto.
    + reflexivity.
    + exact Hi.
    + assert (E2 : (exists c content, starts_with_object c false 12 content i rem /\ false = false /\ utf8 s content)
        <-> primitive_text_input 12 (fun o s => utf8 s o) i rem s).
      { unfold primitive_text_input. split; [intros (c & d & H & _ & H2)|intros (c & d & H & H2)]; eauto 8. }
      assert (E1 : (exists c k content, starts_with_ber_object c k 12 content i rem /\ k = false /\ utf8 s content)
        <-> primitive_text_input 12 (fun o s => utf8 s o) i rem s).
      { unfold primitive_text_input. split.
        - intros (c & k & d & (u & l & idb & lenb & bs & HR & Ht & Ei & HC & Ed) & -> & H2).
          destruct l as [n|]; [|destruct HR as [(_ & _ & X) _]; discriminate (X eq_refl)].
          apply contents_definite_len in HC. cbn [content_of] in Ed. subst d n. exists c, bs. split; [|exact H2].
          exists u, idb, lenb. auto.
        - intros (c & d & (u & idb & lenb & HR & Ht & Ei) & H2). exists c, false, d. split; [|auto].
          exists u, (Definite (blen d)), idb, lenb, d. split; [exact HR|]. split; [exact Ht|]. split; [exact Ei|].
          split; [constructor; reflexivity|reflexivity]. }
      rewrite E1 in A, B. rewrite E2 in C, D. auto.
Qed.
Print Assumptions C34_utf8_accept.

Theorem C34_utf8_roundtrip (s : list N) :
  is_text s -> (forall b, utf8 s b -> blen b < 2 ^ 64) ->
  exists enc, to_vec (tober_string Utf8 s) = Ok enc /\ to_vec (tober_str s) = Ok enc
    /\ reads_ber (string_codec Utf8) enc s /\ reads_der (string_codec Utf8) enc s
    /\ reads_ber ostring_codec enc s /\ reads_der ostring_codec enc s
    /\ reads_ber str_codec enc s /\ reads_der str_codec enc s.
Proof.
  intros Hs Hn. destruct C34_utf8_accept as (A & B & C). assert (U := str_bytes_utf8 s Hs). specialize (Hn _ U).
  assert (W : writes (tober_string Utf8 s) Universal false 12 (str_bytes s)) by (repeat split).
  assert (Hok := proj1 (utf8_ok _ _ U)).
  destruct (text_roundtrip _ _ _ _ _ s A W U Hok Hn eq_refl) as (enc & E & R1 & R2).
  destruct (text_roundtrip _ _ _ _ _ s B W U Hok Hn eq_refl) as (enc' & E' & R3 & R4).
  rewrite E in E'. injection E' as <-. exists enc. split; [exact E|]. split; [exact E|].
  split; [exact R1|]. split; [exact R2|]. split; [exact R3|]. split; [exact R4|].
  assert (Henc : bytes_ok enc).
  { destruct (encode_writes _ _ _ _ _ W eq_refl Hn) as (idb & lenb & En & _ & _ & _ & RH).
    unfold to_vec in E. rewrite En in E. injection E as <-. apply readable_ok in RH. rewrite !bytes_ok_app in *. tauto. }
  split; intros x Hx; (assert (Hi : bytes_ok (enc ++ x)) by (apply bytes_ok_app; auto));
    destruct (C (enc ++ x) x s Hi) as (C1 & C2 & C3 & C4); destruct (B (enc ++ x) x s Hi) as (_ & _ & B3 & _);
    (assert (P : primitive_text_input 12 (fun o s => utf8 s o) (enc ++ x) x s) by (apply B3; apply R4; exact Hx)); tauto.
Qed.
Print Assumptions C34_utf8_roundtrip.

(** "aé€😀" (one to four bytes per character); the overlong form [c1 81], a surrogate and a
    code point above 10FFFF are refused. *)
Example C34_case :
  is_text [0x61; 0xe9; 0x20ac; 0x1f600]
  /\ to_vec (tober_str [0x61; 0xe9; 0x20ac; 0x1f600])
     = Ok [0x0c; 0x0a; 0x61; 0xc3; 0xa9; 0xe2; 0x82; 0xac; 0xf0; 0x9f; 0x98; 0x80]
  /\ from_der str_codec [0x0c; 0x02; 0xc1; 0x81] = Err EStringInvalidCharset
  /\ from_der str_codec [0x0c; 0x03; 0xed; 0xa0; 0x80] = Err EStringInvalidCharset
  /\ from_der str_codec [0x0c; 0x04; 0xf4; 0x90; 0x80; 0x80] = Err EStringInvalidCharset.
Proof. split; [repeat constructor; unfold scalar; lia|]. repeat split; vm_compute; reflexivity. Qed.

(** ** C33: BMPString and UniversalString *)

Lemma octet_segmented_sound h d r o :
  bytes_ok d -> fits h d -> octet_segmented h d = Ok (r, o) -> r = [] /\ seg 4 octets_value 5 (h_constructed h) d o.
Proof.
  intros Hd Hf E. unfold octet_segmented in E.
  apply (segmented_sound 4 (is_tag TagOctetString) [] (@app N) octet_prim octets_value (fun x => x) (fun _ => True)) in E;
    try assumption; try reflexivity.
  - destruct E as [E ->]. auto.
  - split; [exact I|reflexivity].
  - intros; split; [exact I|reflexivity].
  - intros h' d' r' t' _ _ _ _ E'. injection E' as <- <-. reflexivity.
Qed.

Lemma wide_iff h d o :
  bytes_ok d -> fits h d ->
  ((exists r, wide_data h d = Ok (r, o)) <-> o = d /\ (h_constructed h = true \/ d <> [])).
Proof.
  intros Hd Hf. unfold wide_data. destruct (h_constructed h) eqn:K.
  - split; [intros [r E]; injection E as <- <-; auto|intros [-> _]; eauto].
  - split.
    + intros [r E]. apply octet_segmented_sound in E as [_ S]; [|assumption|assumption]. rewrite K in S.
      inversion S; subst. auto.
    + intros [-> [?|Hne]]; [discriminate|]. exists []. apply octet_segmented_iff; try assumption. rewrite K.
      constructor; [exact Hne|reflexivity].
Qed.

(** What the parsers of the two types accept: the content (of either form) holds the code units, and is not
    empty when primitive. *)
Definition accepts_wide (p : codec (list N)) (tag : N) (R : bytes -> list N -> Prop) : Prop :=
  forall i rem s, bytes_ok i ->
    let ber := exists c k content, starts_with_ber_object c k tag content i rem /\ (k = true \/ content <> []) /\ R content s in
    let der := exists c content, starts_with_object c false tag content i rem /\ content <> [] /\ R content s in
    (parse_ber p i = Ok (rem, s) <-> ber) /\ (from_ber p i = Ok (rem, s) <-> ber)
    /\ (parse_der p i = Ok (rem, s) <-> der) /\ (from_der p i = Ok (rem, s) <-> der).

Lemma wide_accept (p : codec (list N)) tag (R : bytes -> list N -> Prop) (f : bytes -> res (list N)) :
  plain p -> (forall x, accept_tag p x = is_tag tag x) ->
  (forall h d, ber_content p h d = let* (r, o) := wide_data h d in let* s := f o in Ok (r, s)) ->
  (forall h d, der_content p h d = let* _ := assert_primitive h in ber_content p h d) ->
  (forall a, check_constraints p a = check_primitive a) ->
  (forall o s, bytes_ok o -> (f o = Ok s <-> R o s)) ->
  accepts_wide p tag R.
Proof.
  intros Hp Ha Hb Hd Hc Hf i rem s Hi. cbv zeta.
  assert (B : forall h d s, bytes_ok d -> fits h d ->
     ((exists r, ber_content p h d = Ok (r, s)) <-> (h_constructed h = true \/ d <> []) /\ R d s)).
  { intros h d v Hok Hfit. rewrite Hb. split.
    - intros [r E]. apply bind_ok in E as ([r' o] & E1 & E). apply bind_ok in E as (v' & E2 & E). injection E as _ <-.
      destruct (proj1 (wide_iff h d o Hok Hfit) (ex_intro _ _ E1)) as [-> H]. split; [exact H|]. apply Hf; assumption.
    - intros [H1 H2]. destruct (proj2 (wide_iff h d d Hok Hfit) (conj eq_refl H1)) as [r E]. apply Hf in H2; [|exact Hok].
      exists r. rewrite E. cbn [bind]. rewrite H2. reflexivity. }
  pose proof (text_accept p tag (fun k d s => (k = true \/ d <> []) /\ R d s) i rem s) as T. cbv zeta in T.
  assert (G : (exists c content, starts_with_object c false tag content i rem /\ (false = true \/ content <> []) /\ R content s)
     <-> (exists c content, starts_with_object c false tag content i rem /\ content <> [] /\ R content s)).
  { split; intros (c & d & H & H1 & H2); exists c, d; split; try exact H; split; auto. destruct H1; [discriminate|assumption]. }
  rewrite G in T. apply T; auto.
  intros h d v Hok Hl. rewrite Hd. unfold assert_primitive. destruct (h_constructed h) eqn:K; cbn [bind].
  - split; [intros [r E]; discriminate|intros [E _]; discriminate].
  - rewrite B; [|exact Hok|unfold fits; rewrite Hl; reflexivity]. rewrite K. tauto.
Qed.

Theorem C33_bmp_accept : accepts_wide bmp_codec 30 (fun o s => utf16be s o \/ utf16be_odd s o).
Proof.
  apply (wide_accept _ _ _ (fun o => match from_utf16 (bmp_units o) with Some s => Ok s | None => Err EStringInvalidCharset end));
    try reflexivity.
  - intros a; reflexivity.
  - intros h d. cbn [ber_content bmp_codec]. unfold bmp_ber_content. destruct (wide_data h d) as [[r o]| | |]; try reflexivity.
    cbn [bind]. destruct (from_utf16 (bmp_units o)); reflexivity.
  - intros o s Ho. rewrite <- (from_utf16_iff o s Ho). destruct (from_utf16 (bmp_units o)) as [t|].
    + split; intros E; injection E as <-; reflexivity.
    + split; discriminate.
Qed.
Print Assumptions C33_bmp_accept.

Theorem C33_universal_accept : accepts_wide universal_codec 28 (fun o s => ucs4be s o).
Proof.
  apply (wide_accept _ _ _ (fun o => if negb (blen o mod 4 =? 0) then Err EStringInvalidCharset
           else match universal_chars o with Some s => Ok s | None => Err EStringInvalidCharset end)); try reflexivity.
  - intros a; reflexivity.
  - intros h d. cbn [ber_content universal_codec]. unfold universal_ber_content. destruct (wide_data h d) as [[r o]| | |]; try reflexivity.
    cbn [bind]. destruct (negb _); [reflexivity|]. destruct (universal_chars o); reflexivity.
  - intros o s Ho. destruct (N.eqb_spec (blen o mod 4) 0) as [E|E]; cbn [negb].
    + rewrite <- (universal_chars_iff o s Ho). destruct (universal_chars o) as [t|].
      * split; intros H; injection H as <-; reflexivity.
      * split; discriminate.
    + split; [discriminate|]. intros H. exfalso. apply E. apply ucs4_len in H. rewrite H. lia.
Qed.
Print Assumptions C33_universal_accept.

Lemma wide_roundtrip (p : codec (list N)) tag R w cb s :
  accepts_wide p tag R -> writes w Universal false tag cb -> R cb s -> cb <> [] -> bytes_ok cb -> blen cb < 2 ^ 64 ->
  tag < 2 ^ 32 ->
  exists enc, to_vec w = Ok enc /\ reads_ber p enc s /\ reads_der p enc s.
Proof.
  intros A W HR Hne Hok Hn Ht. destruct (encode_writes _ _ _ _ _ W Ht Hn) as (idb & lenb & E & _ & _ & _ & RH).
  exists (idb ++ lenb ++ cb). split; [unfold to_vec; rewrite E; reflexivity|].
  assert (Hi : forall x, bytes_ok x -> bytes_ok ((idb ++ lenb ++ cb) ++ x)).
  { intros x Hx. apply readable_ok in RH. rewrite !bytes_ok_app in *. tauto. }
  assert (O : forall x, starts_with_object Universal false tag cb ((idb ++ lenb ++ cb) ++ x) x).
  { intros x. exists tag, idb, lenb. split; [exact RH|]. split; [apply N.mod_small; exact Ht|]. rewrite <- !app_assoc. reflexivity. }
  assert (OB : forall x, starts_with_ber_object Universal false tag cb ((idb ++ lenb ++ cb) ++ x) x).
  { intros x. exists tag, (Definite (blen cb)), idb, lenb, cb. split; [exact RH|]. split; [apply N.mod_small; exact Ht|].
    split; [rewrite <- !app_assoc; reflexivity|]. split; [constructor; reflexivity|reflexivity]. }
  split; intros x Hx; pose proof (A _ x s (Hi x Hx)) as A0; cbv zeta in A0; destruct A0 as (A1 & A2 & A3 & A4).
  - rewrite A1, A2. split; exists Universal, false, cb; (split; [apply OB|]; split; [right; exact Hne|exact HR]).
  - rewrite A3, A4. split; exists Universal, cb; (split; [apply O|]; split; [exact Hne|exact HR]).
Qed.

(** Every non-empty text round trips through BMPString: the content written is its UTF-16 form, and the
    announced length is that of the content. *)
Theorem C33_bmp_roundtrip_partial (s : list N) :
  is_text s -> s <> [] -> (forall content, utf16be s content -> blen content < 2 ^ 64) ->
  exists content enc, utf16be s content /\ tb_write_content (tober_bmp s) = Ok (content, blen content)
    /\ tb_content_len (tober_bmp s) = Definite (blen content)
    /\ to_vec (tober_bmp s) = Ok enc /\ reads_ber bmp_codec enc s /\ reads_der bmp_codec enc s.
Proof.
  intros Hs Hne Hn. assert (U := bmp_bytes_utf16 s Hs). specialize (Hn _ U).
  assert (W : writes (tober_bmp s) Universal false 30 (bmp_bytes s)).
  { split; [reflexivity|]. split; [|reflexivity]. cbn [tb_content_len tober_bmp]. rewrite bmp_bytes_len. reflexivity. }
  destruct (wide_roundtrip _ _ _ _ _ s C33_bmp_accept W) as (enc & E & R1 & R2).
  - left. exact U.
  - destruct s; [congruence|]. inversion U as [|c s' u us H1 H2 E1 E2]; subst. destruct H1; discriminate.
  - eapply utf16_ok. exact U.
  - exact Hn.
  - reflexivity.
  - exists (bmp_bytes s), enc. split; [exact U|]. split; [reflexivity|]. split; [apply W|]. auto.
Qed.
Print Assumptions C33_bmp_roundtrip_partial.

(** Missing: the empty text is written and then not read. *)
Theorem C33_bmp_empty_refuted :
  exists s enc, is_text s /\ to_vec (tober_bmp s) = Ok enc
    /\ from_ber bmp_codec enc = Err EInvalidLength /\ from_der bmp_codec enc = Err EInvalidLength.
Proof. exists [], [0x1e; 0x00]. split; [constructor|]. repeat split; vm_compute; reflexivity. Qed.
Print Assumptions C33_bmp_empty_refuted.

(** A content of odd length is accepted, although it is not UTF-16. *)
Theorem C33_bmp_odd_refuted :
  exists i s, from_der bmp_codec i = Ok ([], s) /\ (forall s', ~ utf16be s' [0x41]) /\ i = [0x1e; 0x01; 0x41].
Proof.
  exists [0x1e; 0x01; 0x41], [0x41]. split; [vm_compute; reflexivity|]. split; [|reflexivity].
  intros s' H. inversion H as [|c s'' u us H1 H2 E1 E2]. destruct H1; discriminate.
Qed.
Print Assumptions C33_bmp_odd_refuted.

(** The constructed form is not read as segments: the headers of the segments become text. *)
Theorem C33_bmp_constructed_refuted :
  exists i v s, string_object 30 octets_value 5 i v /\ utf16be [0x41] v
    /\ from_ber bmp_codec i = Ok ([], s) /\ s <> [0x41].
Proof.
  exists [0x3e; 0x04; 0x1e; 0x02; 0x00; 0x41], [0x00; 0x41], [0x1e02; 0x41].
  split.
  - change [0x3e; 0x04; 0x1e; 0x02; 0x00; 0x41] with ([0x3e] ++ [0x04] ++ [0x1e; 0x02; 0x00; 0x41]).
    apply so_definite with (c := Universal).
    + split; [split; [apply (id_low Universal true 30); reflexivity|split; [apply (lo_short 4); reflexivity|discriminate]]|].
      split; [vm_compute; discriminate|intros n E; injection E as <-; reflexivity].
    + change [0x1e; 0x02; 0x00; 0x41] with (([0x1e] ++ [0x02] ++ [0x00; 0x41]) ++ []).
      change [0x00; 0x41] with ([0x00; 0x41] ++ []) at 2. apply sos_cons; [|constructor].
      apply so_primitive with (c := Universal); [|reflexivity].
      split; [split; [apply (id_low Universal false 30); reflexivity|split; [apply (lo_short 2); reflexivity|discriminate]]|].
      split; [vm_compute; discriminate|intros n E; injection E as <-; reflexivity].
  - split; [|split; [vm_compute; reflexivity|discriminate]].
    change [0x00; 0x41] with ([0x00; 0x41] ++ []). constructor; [|constructor].
    apply (utf16_1 0x41 0 0x41); try reflexivity. unfold scalar; lia.
Qed.
Print Assumptions C33_bmp_constructed_refuted.

(** UniversalString: the content written is the UCS-4 form; the announced length is right exactly for ASCII
    texts, and these round trip unless empty. *)
Theorem C33_universal_roundtrip_partial (s : list N) :
  is_text s ->
  exists content, ucs4be s content /\ (exists n, tb_write_content (tober_universal s) = Ok (content, n))
    /\ (tb_content_len (tober_universal s) = Definite (blen content) <-> Forall ascii_char s)
    /\ (Forall ascii_char s -> s <> [] -> blen content < 2 ^ 64 ->
        exists enc, to_vec (tober_universal s) = Ok enc /\ reads_ber universal_codec enc s /\ reads_der universal_codec enc s).
Proof.
  intros Hs. assert (U := universal_bytes_ucs4 s Hs). exists (universal_bytes s). split; [exact U|].
  split; [eexists; reflexivity|].
  assert (FA : Forall ascii_char s <-> Forall (fun c => c < 128) s).
  { split; apply Forall_impl; unfold ascii_char; intros; lia. }
  assert (L : tb_content_len (tober_universal s) = Definite (blen (universal_bytes s)) <-> Forall ascii_char s).
  { cbn [tb_content_len tober_universal]. rewrite (ucs4_len _ _ U), FA, (proj2 (str_bytes_len s)). split.
    - intros E. injection E as E. lia.
    - intros ->. f_equal. lia. }
  split; [exact L|]. intros F Hne Hn. apply (wide_roundtrip _ 28 (fun o s => ucs4be s o) _ (universal_bytes s)).
  - exact C33_universal_accept.
  - split; [reflexivity|]. assert (L' := proj2 L F). split; [exact L'|]. cbn [tb_content_len tb_write_content tober_universal] in *.
    injection L' as ->. reflexivity.
  - exact U.
  - destruct s; [congruence|discriminate].
  - eapply ucs4_ok. exact U.
  - exact Hn.
  - reflexivity.
Qed.
Print Assumptions C33_universal_roundtrip_partial.

(** Missing: other texts ("é": eight bytes announced, four written, and the result cannot be read) and the
    empty text. *)
Theorem C33_universal_refuted :
  (exists s enc, is_text s /\ to_vec (tober_universal s) = Ok enc /\ from_der universal_codec enc = Incomplete 4
     /\ from_ber universal_codec enc = Incomplete 4)
  /\ (exists enc, to_vec (tober_universal []) = Ok enc /\ from_der universal_codec enc = Err EInvalidLength).
Proof.
  split.
  - exists [0xe9], [0x1c; 0x08; 0x00; 0x00; 0x00; 0xe9]. split; [repeat constructor; unfold scalar; lia|].
    repeat split; vm_compute; reflexivity.
  - exists [0x1c; 0x00]. split; vm_compute; reflexivity.
Qed.
Print Assumptions C33_universal_refuted.

Example C33_case :
  is_text [0x41; 0x20ac; 0x1f600]
  /\ to_vec (tober_bmp [0x41; 0x20ac; 0x1f600]) = Ok [0x1e; 0x08; 0x00; 0x41; 0x20; 0xac; 0xd8; 0x3d; 0xde; 0x00]
  /\ to_vec (tober_universal [0x41; 0x42]) = Ok [0x1c; 0x08; 0; 0; 0; 0x41; 0; 0; 0; 0x42]
  /\ from_der bmp_codec [0x1e; 0x02; 0xd8; 0x3d] = Err EStringInvalidCharset
  /\ from_der universal_codec [0x1c; 0x04; 0; 0; 0xd8; 0] = Err EStringInvalidCharset.
Proof. split; [repeat constructor; unfold scalar; lia|]. repeat split; vm_compute; reflexivity. Qed.

(** ** C50: [Any::as_any_str] and [Any::as_any_string] *)

Definition str_tags : list N := [12; 18; 19; 20; 21; 22; 25; 26; 27].

Lemma any_str_tag_iff t : any_str_tag t = true <-> In t str_tags.
Proof.
  unfold any_str_tag. rewrite existsb_exists. unfold str_tags. split.
  - intros (x & Hx & E). apply N.eqb_eq in E. subst x. cbn in *. tauto.
  - intros H. exists t. split; [cbn in *; tauto|apply N.eqb_refl].
Qed.

Lemma any_utf8 d (s : list N) :
  match from_utf8 d with Some s => Ok s | None => Err EStringInvalidCharset end = Ok s <-> utf8 s d.
Proof.
  rewrite <- from_utf8_iff. destruct (from_utf8 d); split; try discriminate; intros E; injection E as <-; reflexivity.
Qed.

(** What they return, on objects as the parsers give them. *)
Theorem C50_any_str_accept (h : header) (d : bytes) (s : list N) :
  bytes_ok d -> fits h d ->
  (as_any_str (mk_any h d) = Ok s <-> In (h_tag h) str_tags /\ utf8 s d)
  /\ (as_any_string (mk_any h d) = Ok s <->
      In (h_tag h) str_tags /\ utf8 s d
      \/ h_tag h = 30 /\ (h_constructed h = true \/ d <> []) /\ (utf16be s d \/ utf16be_odd s d)
      \/ h_tag h = 28 /\ (h_constructed h = true \/ d <> []) /\ ucs4be s d).
Proof.
  intros Hd Hf. unfold as_any_str, as_any_string. cbn [any_header any_data].
  assert (K := any_str_tag_iff (h_tag h)). destruct (any_str_tag (h_tag h)).
  - assert (In (h_tag h) str_tags) by (apply K; reflexivity). rewrite any_utf8. split; [tauto|].
    split; [tauto|]. intros [[_ H']|[[E _]|[E _]]]; [exact H'| |]; rewrite E in H; cbn in H; lia.
  - assert (Hn : ~ In (h_tag h) str_tags) by (intros X; apply K in X; discriminate).
    split; [split; [discriminate|tauto]|].
    assert (W := fun o => wide_iff h d o Hd Hf).
    destruct (N.eqb_spec (h_tag h) TagBmpString) as [E|E]; [|destruct (N.eqb_spec (h_tag h) TagUniversalString) as [E'|E']].
    + cbn [try_from_any bmp_codec]. rewrite default_try_from_ok, is_tag_iff. change TagBmpString with 30 in *.
      assert (B : (exists r, bmp_ber_content h d = Ok (r, s)) <-> (h_constructed h = true \/ d <> []) /\ (utf16be s d \/ utf16be_odd s d)).
      { change (utf16be s d \/ utf16be_odd s d) with (bmp_read d s). rewrite <- (from_utf16_iff d s Hd). unfold bmp_ber_content. split.
        - intros [r H]. apply bind_ok in H as ([r' o] & E1 & H). destruct (proj1 (W o) (ex_intro _ _ E1)) as [-> H1].
          split; [exact H1|]. destruct (from_utf16 (bmp_units d)); [|discriminate]. injection H as _ <-. reflexivity.
        - intros [H1 H2]. destruct (proj2 (W d) (conj eq_refl H1)) as [r E1]. exists r. rewrite E1. cbn [bind]. rewrite H2. reflexivity. }
      rewrite B. split; [tauto|]. intros [[? _]|[H|[H _]]]; [tauto|tauto|]. rewrite E in H. discriminate.
    + cbn [try_from_any universal_codec]. rewrite default_try_from_ok, is_tag_iff. change TagUniversalString with 28 in *.
      assert (B : (exists r, universal_ber_content h d = Ok (r, s)) <-> (h_constructed h = true \/ d <> []) /\ ucs4be s d).
      { rewrite <- (universal_chars_iff d s Hd). unfold universal_ber_content. split.
        - intros [r H]. apply bind_ok in H as ([r' o] & E1 & H). destruct (proj1 (W o) (ex_intro _ _ E1)) as [-> H1].
          split; [exact H1|]. destruct (negb _); [discriminate|]. destruct (universal_chars d); [|discriminate].
          injection H as _ <-. reflexivity.
        - intros [H1 H2]. destruct (proj2 (W d) (conj eq_refl H1)) as [r E1]. exists r. rewrite E1. cbn [bind]. rewrite H2.
          apply (universal_chars_iff d s Hd) in H2. apply ucs4_len in H2. rewrite H2.
          replace (4 * blen s mod 4) with 0 by lia. reflexivity. }
      rewrite B. split; [tauto|]. intros [[? _]|[[H _]|H]]; [tauto| |tauto]. rewrite E' in H. discriminate.
    + split; [discriminate|]. intros [[? _]|[[H _]|[H _]]]; [tauto| |]; exfalso; [apply E|apply E']; exact H.
Qed.
Print Assumptions C50_any_str_accept.

(** On a primitive object, whatever the typed parser of its tag returns, they return; for UTF8String the
    converse holds too. *)
Theorem C50_any_str_agrees_partial (k : string_kind) (h : header) (d : bytes) (s : list N) :
  k <> ObjDescriptor -> h_constructed h = false -> h_tag h = universal_string_tag k ->
  (try_from_any (string_codec k) (mk_any h d) = Ok s ->
     as_any_str (mk_any h d) = Ok s /\ as_any_string (mk_any h d) = Ok s)
  /\ (k = Utf8 -> as_any_str (mk_any h d) = Ok s -> try_from_any (string_codec k) (mk_any h d) = Ok s).
Proof.
  intros Hk K Ht.
  assert (T : any_str_tag (h_tag h) = true) by (rewrite Ht; destruct k; try congruence; reflexivity).
  unfold as_any_str, as_any_string. cbn [any_header any_data]. rewrite T, any_utf8.
  cbn [try_from_any string_codec]. rewrite default_try_from_ok. unfold string_ber_content. rewrite K. cbn [negb bind]. split.
  - intros [_ [r E]]. apply bind_ok in E as (u & _ & E). destruct (from_utf8 d) eqn:F; [|discriminate]. injection E as _ <-.
    apply from_utf8_iff in F. auto.
  - intros -> U. split; [rewrite Ht; reflexivity|]. apply from_utf8_iff in U. cbn [test_valid_charset]. rewrite U. cbn. eauto.
Qed.
Print Assumptions C50_any_str_agrees_partial.

(** Missing: on a constructed object the text includes the headers of the segments; and the alphabet is not
    checked. *)
Theorem C50_constructed_refuted :
  exists i a s s', from_ber any_codec i = Ok ([], a) /\ from_ber (string_codec Utf8) i = Ok ([], s)
    /\ as_any_str a = Ok s' /\ s' <> s.
Proof.
  exists [0x2c; 0x04; 0x04; 0x02; 0x61; 0x62]. eexists _, [0x61; 0x62], [4; 2; 0x61; 0x62].
  split; [vm_compute; reflexivity|]. split; [vm_compute; reflexivity|]. split; [vm_compute; reflexivity|discriminate].
Qed.
Print Assumptions C50_constructed_refuted.

Theorem C50_alphabet_refuted :
  exists i a s, from_der any_codec i = Ok ([], a) /\ as_any_str a = Ok s
    /\ from_der (string_codec Numeric) i = Err EStringInvalidCharset.
Proof.
  exists [0x12; 0x01; 0x61]. eexists _, [0x61]. split; [vm_compute; reflexivity|]. split; vm_compute; reflexivity.
Qed.
Print Assumptions C50_alphabet_refuted.

Example C50_case :
  exists a, from_der any_codec [0x0c; 0x02; 0xc3; 0xa9] = Ok ([], a) /\ as_any_str a = Ok [0xe9]
    /\ try_from_any (string_codec Utf8) a = Ok [0xe9] /\ h_constructed (any_header a) = false.
Proof. eexists. repeat split; vm_compute; reflexivity. Qed.
