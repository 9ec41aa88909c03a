(** Character strings: exactly which written strings are read again (C32, C33) and exactly when the text of an
    untyped object is that of its type (C50). *)
From Verif Require Import Base MHeader MEncode SHeader PArith PHeader PEncode MBer SBer PBer PIter
  MInt SInt PCodec PInt PropInt MSeg SSeg PSeg PBits PropSeg MText SText PText PropText MCont PropTag.

Lemma enforced_127 k b : enforced k b -> b < 128.
Proof. intros [H|[_ ->]]; [eapply alphabet_127; exact H|lia]. Qed.

(** ** C32: any text can be put into a string; it is read again exactly when it is over the alphabet (with DEL for
    VisibleString).  What is read is then the text. *)
Theorem C32_written_exact (k : string_kind) (s : list N) :
  k <> Utf8 -> is_text s -> blen (str_bytes s) < 2 ^ 64 ->
  exists enc, to_vec (tober_string k s) = Ok enc /\ forall p, In p [parse_ber (string_codec k); from_ber (string_codec k); parse_der (string_codec k); from_der (string_codec k)] ->
    (forall rem t, p enc = Ok (rem, t) -> rem = [] /\ t = s)
    /\ ((exists r, p enc = Ok r) <-> Forall (enforced k) s).
Proof.
  intros Hk Hs Hn.
  assert (W : writes (tober_string k s) Universal false (kind_tag k) (str_bytes s)) by (repeat split).
  assert (Ht : kind_tag k < 2 ^ 32) by (destruct k; reflexivity).
  assert (Hok := str_bytes_ok s Hs).
  destruct (encode_writes _ _ _ _ _ W Ht Hn) as (idb & lenb & E & _ & _ & _ & RH).
  set (enc := idb ++ lenb ++ str_bytes s) in *. exists enc. split; [unfold to_vec; rewrite E; reflexivity|].
  assert (Hi : bytes_ok enc) by (apply readable_ok in RH; unfold enc; rewrite !bytes_ok_app in *; tauto).
  assert (A : accepts_text (string_codec k) (kind_tag k) (octets_text (enforced k))) by (apply string_accept; intros o t Ho; apply charset_iff; assumption).
  assert (O : starts_with_object Universal false (kind_tag k) (str_bytes s) enc []).
  { exists (kind_tag k), idb, lenb. split; [exact RH|]. split; [apply N.mod_small; exact Ht|]. unfold enc. rewrite app_nil_r. reflexivity. }
  assert (S : forall t, octets_text (enforced k) (str_bytes s) t <-> t = s /\ Forall (enforced k) s).
  { assert (As : Forall (enforced k) s -> str_bytes s = s).
    { intros F. apply ascii_str_bytes. eapply Forall_impl; [|exact F]. apply enforced_127. }
    intros t. split.
    - intros H. pose proof (proj2 (charset_iff k (str_bytes s) t Hk Hok) H) as [_ U]. rewrite from_str_bytes in U by exact Hs. injection U as <-.
      split; [reflexivity|]. destruct H as [H1 H2]. rewrite <- H1 in H2. exact H2.
    - intros [-> F]. unfold octets_text. rewrite (As F). auto. }
  assert (B : forall rem t, text_input (kind_tag k) (octets_text (enforced k)) enc rem t <-> rem = [] /\ t = s /\ Forall (enforced k) s).
  { intros rem t. split.
    - intros (c & f & content & octets & O' & SO & R). destruct (ber_object_unique _ _ _ _ _ _ _ _ _ _ _ Hi (object_is_ber _ _ _ _ _ _ O) O') as (<- & <- & _ & <- & <-).
      destruct SO as [[_ ->]|[X _]]; [|discriminate]. apply S in R. tauto.
    - intros (-> & R). exists Universal, false, (str_bytes s), (str_bytes s). split; [apply object_is_ber; exact O|]. split; [left; auto|apply S; exact R]. }
  assert (D : forall rem t, primitive_text_input (kind_tag k) (octets_text (enforced k)) enc rem t <-> rem = [] /\ t = s /\ Forall (enforced k) s).
  { intros rem t. split.
    - intros (c & content & O' & R). destruct (ber_object_unique _ _ _ _ _ _ _ _ _ _ _ Hi (object_is_ber _ _ _ _ _ _ O) (object_is_ber _ _ _ _ _ _ O')) as (_ & _ & _ & <- & <-).
      apply S in R. tauto.
    - intros (-> & R). exists Universal, (str_bytes s). split; [exact O|apply S; exact R]. }
  assert (G : forall q : res (bytes * list N), (forall rem t, q = Ok (rem, t) <-> rem = [] /\ t = s /\ Forall (enforced k) s) ->
    (forall rem t, q = Ok (rem, t) -> rem = [] /\ t = s) /\ ((exists r, q = Ok r) <-> Forall (enforced k) s)).
  { intros q H. split; [intros rem t Eq; apply H in Eq; tauto|]. split.
    - intros [[rem t] Eq]. apply H in Eq. tauto.
    - intros F. exists ([], s). apply H. auto. }
  intros p Hp. cbn [In] in Hp. destruct Hp as [<-|[<-|[<-|[<-|[]]]]]; apply G; intros rem t; destruct (A enc rem t Hi) as (A1 & A2 & A3 & A4).
  - rewrite A1. apply B.
  - rewrite A2. apply B.
  - rewrite A3. apply D.
  - rewrite A4. apply D.
Qed.
Print Assumptions C32_written_exact.

(** "a*" as NumericString is written and not read; "1 2" comes back. *)
Example C32_written_exact_case :
  to_vec (tober_string Numeric [49; 32; 50]) = Ok [0x12; 3; 49; 32; 50] /\ from_der (string_codec Numeric) [0x12; 3; 49; 32; 50] = Ok ([], [49; 32; 50])
  /\ is_text [97; 42] /\ ~ Forall (enforced Numeric) [97; 42].
Proof.
  split; [vm_compute; reflexivity|]. split; [vm_compute; reflexivity|]. split; [repeat constructor; unfold scalar; lia|].
  intros F. inversion F as [|? ? H _]; subst. destruct H as [H|[H _]]; [|discriminate]. vm_compute in H. intuition discriminate.
Qed.

(** ** C33: a UniversalString is read again exactly when its text is ASCII and not empty; with any other character, more
    octets are announced than written, and every reader waits for the rest. *)
Theorem C33_universal_exact (s : list N) :
  is_text s -> 4 * blen (str_bytes s) < 2 ^ 64 ->
  exists enc, to_vec (tober_universal s) = Ok enc
    /\ forall p, In p [parse_ber universal_codec; from_ber universal_codec; parse_der universal_codec; from_der universal_codec] ->
       p enc = if forallb (fun c => c <? 128) s then (if blen s =? 0 then Err EInvalidLength else Ok ([], s))
               else Incomplete (4 * (blen (str_bytes s) - blen s)).
Proof.
  intros Hs Hn. destruct (C33_universal_roundtrip_partial s Hs) as (content & U & _ & _ & RT).
  assert (FA : Forall (fun c => c < 128) s <-> forallb (fun c => c <? 128) s = true).
  { rewrite forallb_forall, Forall_forall. split; intros H x Hx; apply N.ltb_lt, H, Hx. }
  destruct (str_bytes_len s) as [L1 L2]. destruct (forallb (fun c => c <? 128) s) eqn:F.
  - assert (F1 : Forall (fun c => c < 128) s) by (apply FA; reflexivity). destruct (N.eqb_spec (blen s) 0) as [E0|E0].
    + destruct s; [|rewrite blen_cons in E0; lia]. exists [0x1c; 0]. split; [vm_compute; reflexivity|].
      intros p Hp. cbn [In] in Hp. destruct Hp as [<-|[<-|[<-|[<-|[]]]]]; vm_compute; reflexivity.
    + destruct RT as (enc & E & RB & RD).
      * eapply Forall_impl; [|exact F1]. unfold ascii_char. intros; lia.
      * intros ->. apply E0. reflexivity.
      * apply ucs4_len in U. rewrite U. lia.
      * exists enc. split; [exact E|]. specialize (RB [] (Forall_nil _)). specialize (RD [] (Forall_nil _)). rewrite app_nil_r in RB, RD.
        intros p Hp. cbn [In] in Hp. destruct Hp as [<-|[<-|[<-|[<-|[]]]]]; [apply RB|apply RB|apply RD|apply RD].
  - assert (F1 : blen (str_bytes s) <> blen s) by (intros X; apply L2, FA in X; discriminate).
    destruct (write_header_ok (tober_universal s) Universal false 28 eq_refl) as (idb & lenb & E & H6 & S1 & S2).
    { split; [reflexivity|]. intros n En. injection En as <-. lia. }
    cbn [tb_content_len tober_universal] in S2. set (n := blen (str_bytes s) * 4) in *.
    assert (RH : readable_header Universal false 28 (Definite n) idb lenb) by (eapply readable_written; try eassumption; [reflexivity|lia]).
    exists (idb ++ lenb ++ universal_bytes s). split.
    { unfold to_vec, encode. rewrite E. cbn [tb_write_content tober_universal wseq bind]. rewrite <- app_assoc. reflexivity. }
    assert (Lu : blen (universal_bytes s) = 4 * blen s) by (apply ucs4_len, universal_bytes_ucs4; exact Hs).
    assert (Uok : bytes_ok (universal_bytes s)) by (eapply ucs4_ok, universal_bytes_ucs4; exact Hs).
    assert (T : take n (universal_bytes s) = Incomplete (4 * (blen (str_bytes s) - blen s))).
    { unfold take. rewrite Lu. destruct (N.leb_spec n (4 * blen s)); [lia|]. f_equal. lia. }
    assert (C : ber_object_content (hdr Universal false 28 (Definite n) idb lenb) (universal_bytes s) MAX_RECURSION = Incomplete (4 * (blen (str_bytes s) - blen s))).
    { unfold ber_object_content. change MAX_RECURSION with 50%nat. cbn [skip_content hdr h_length h_tag].
      replace ((n =? 0) && (28 mod 2 ^ 32 =? TagEndOfContent)) with false by (rewrite andb_comm; reflexivity). rewrite T. reflexivity. }
    intros p Hp. cbn [In] in Hp. destruct Hp as [<-|[<-|[<-|[<-|[]]]]].
    + unfold parse_ber. rewrite (parse_header_at _ _ _ _ _ _ _ Uok RH). cbn [bind]. change (accept_tag universal_codec (h_tag (hdr Universal false 28 (Definite n) idb lenb))) with true. rewrite C. reflexivity.
    + unfold from_ber, parse_ber_any. rewrite (parse_header_at _ _ _ _ _ _ _ Uok RH). cbn [bind]. rewrite C. reflexivity.
    + unfold parse_der. rewrite (parse_der_header_at _ _ _ _ _ _ _ Uok RH). cbn [is_definite bind]. change (accept_tag universal_codec (h_tag (hdr Universal false 28 (Definite n) idb lenb))) with true.
      cbn [h_length hdr]. rewrite T. reflexivity.
    + unfold from_der, parse_der_any. rewrite (parse_der_header_at _ _ _ _ _ _ _ Uok RH). cbn [is_definite bind].
      unfold length_assert_definite, der_get_content. cbn [h_length hdr is_definite bind]. rewrite T. reflexivity.
Qed.
Print Assumptions C33_universal_exact.

(** "aé": twelve octets announced, eight written. *)
Example C33_universal_exact_case : is_text [97; 0xe9]
  /\ to_vec (tober_universal [97; 0xe9]) = Ok [0x1c; 12; 0; 0; 0; 97; 0; 0; 0; 0xe9]
  /\ from_ber universal_codec [0x1c; 12; 0; 0; 0; 97; 0; 0; 0; 0xe9] = Incomplete 4
  /\ blen (str_bytes [97; 0xe9]) = 3.
Proof. split; [repeat constructor; unfold scalar; lia|]. repeat split; vm_compute; reflexivity. Qed.

(** ** C50: on a primitive object the typed parser returns a text exactly when the untyped methods do and it is over the
    alphabet of the type. *)
Theorem C50_exact (k : string_kind) (h : header) (d : bytes) (s : list N) :
  bytes_ok d -> k <> ObjDescriptor -> h_constructed h = false -> h_tag h = universal_string_tag k ->
  (try_from_any (string_codec k) (mk_any h d) = Ok s <-> as_any_str (mk_any h d) = Ok s /\ (k = Utf8 \/ Forall (enforced k) s))
  /\ as_any_string (mk_any h d) = as_any_str (mk_any h d).
Proof.
  intros Hd Hk K Ht.
  assert (T : any_str_tag (h_tag h) = true) by (rewrite Ht; destruct k; try congruence; reflexivity).
  split; [|unfold as_any_str, as_any_string; cbn [any_header any_data]; rewrite T; reflexivity]. split.
  - intros E. split; [apply (C50_any_str_agrees_partial k h d s Hk K Ht); exact E|].
    assert (D : {k = Utf8} + {k <> Utf8}) by (destruct k; (left; reflexivity) || (right; discriminate)).
    destruct D as [D|D]; [left; exact D|right]. cbn [try_from_any string_codec] in E. rewrite default_try_from_ok in E.
    destruct E as [_ [r E]]. unfold string_ber_content in E. rewrite K in E. cbn [negb bind] in E.
    apply bind_ok in E as (u & E1 & E2). destruct u. destruct (from_utf8 d) as [t|] eqn:F; [|discriminate]. injection E2 as _ ->.
    destruct (proj1 (charset_iff k d s D Hd) (conj E1 F)) as [X Y]. rewrite <- X in Y. exact Y.
  - intros [E A]. destruct A as [->|A]; [apply (C50_any_str_agrees_partial Utf8 h d s Hk K Ht); [reflexivity|exact E]|].
    unfold as_any_str in E. cbn [any_header any_data] in E. rewrite T, any_utf8 in E.
    assert (D : {k = Utf8} + {k <> Utf8}) by (destruct k; (left; reflexivity) || (right; discriminate)).
    pose proof (proj1 (utf8_str_bytes s d) E) as [_ Ed].
    assert (As : str_bytes s = s) by (apply ascii_str_bytes; eapply Forall_impl; [|exact A]; apply enforced_127).
    cbn [try_from_any string_codec]. rewrite default_try_from_ok. split; [rewrite Ht; destruct k; reflexivity|].
    unfold string_ber_content. rewrite K. cbn [negb bind]. apply from_utf8_iff in E. destruct D as [->|D].
    + cbn [test_valid_charset]. rewrite E. cbn [bind]. eauto.
    + assert (R : octets_text (enforced k) d s) by (rewrite Ed, As; split; [reflexivity|exact A]).
      destruct (proj2 (charset_iff k d s D Hd) R) as [R1 _]. rewrite R1, E. cbn [bind]. eauto.
Qed.
Print Assumptions C50_exact.

Example C50_exact_case : exists a, from_der any_codec [0x12; 2; 0x37; 0x61] = Ok ([], a) /\ h_constructed (any_header a) = false
  /\ h_tag (any_header a) = universal_string_tag Numeric /\ as_any_str a = Ok [0x37; 0x61]
  /\ try_from_any (string_codec Numeric) a = Err EStringInvalidCharset.
Proof. eexists. repeat split; vm_compute; reflexivity. Qed.
