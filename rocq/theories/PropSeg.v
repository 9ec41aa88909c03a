(** Properties of OCTET STRING and BIT STRING: C19, C20. *)
From Verif Require Import Base MHeader MEncode SHeader PArith PHeader PEncode MBer SBer PBer PIter
  MInt SInt PCodec PInt PropInt MSeg SSeg PSeg PBits.

(** Acceptance by a codec, through a value function, with lengths of either form. *)
Lemma parse_ber_spec {T Y} (p : codec T) tag (val : T -> Y) (P : bool -> bytes -> Y -> Prop) i rem v :
  (forall x, accept_tag p x = is_tag tag x) ->
  (forall h d v, bytes_ok d -> fits h d ->
     ((exists r t, ber_content p h d = Ok (r, t) /\ val t = v) <-> P (h_constructed h) d v)) ->
  bytes_ok i ->
  ((exists t, parse_ber p i = Ok (rem, t) /\ val t = v) <->
   exists c k content, starts_with_ber_object c k tag content i rem /\ P k content v).
Proof.
  intros Ha Hc Hi.
  assert (Hbs : forall (a b c d : bytes) l, bytes_ok (a ++ b ++ c ++ d) -> bytes_ok (content_of l c)).
  { intros a b c d l H. apply content_of_ok. rewrite !bytes_ok_app in H. tauto. }
  split.
  - intros (t & E & V). apply parse_ber_iff in E as (c & k & u & l & idb & lenb & bs & r & HR & -> & HC & A & E); [|exact Hi].
    rewrite Ha, is_tag_iff in A. exists c, k, (content_of l bs). split; [exists u, l, idb, lenb, bs; auto|].
    apply (Hc (hdr c k u l idb lenb)); [eapply Hbs; exact Hi|eapply content_fits; eassumption|]. eauto.
  - intros (c & k & content & (u & l & idb & lenb & bs & HR & A & -> & HC & ->) & HP).
    destruct (proj2 (Hc (hdr c k u l idb lenb) (content_of l bs) v (Hbs _ _ _ _ _ Hi) (content_fits _ _ _ _ _ _ _ HR HC)) HP)
      as (r & t & E & V). exists t. split; [|exact V]. apply parse_ber_iff; [exact Hi|].
    exists c, k, u, l, idb, lenb, bs, r. rewrite Ha, is_tag_iff. auto 6.
Qed.

(** ** C19: OCTET STRING *)

Lemma octet_segmented_iff h i v :
  bytes_ok i -> fits h i ->
  (seg 4 octets_value 5 (h_constructed h) i v <-> octet_segmented h i = Ok ([], v)).
Proof.
  intros Hi Hf. unfold octet_segmented.
  rewrite (segmented_iff 4 (is_tag TagOctetString) [] (@app N) octet_prim octets_value (fun x => x) (fun _ => True));
    try assumption; try reflexivity; try lia.
  - split; [intros (t & E & ->); exact E|eauto].
  - split; [exact I|reflexivity].
  - intros; split; [exact I|reflexivity].
  - intros h' d r t _ _ _ _ E. injection E as <- <-. reflexivity.
  - intros h' d v' _ _ _ _ ->. exists [], d. split; reflexivity.
Qed.

Lemma octet_content_iff h d v :
  bytes_ok d -> fits h d ->
  ((exists r t, octet_ber_content h d = Ok (r, t) /\ t = v) <->
   (h_constructed h = false /\ octets_value d v \/ h_constructed h = true /\ seg 4 octets_value 5 true d v)).
Proof.
  intros Hd Hf. unfold octet_ber_content. destruct (h_constructed h) eqn:K; cbn [negb].
  - assert (S := octet_segmented_iff h d v Hd Hf). rewrite K in S. rewrite S. split.
    + intros (r & t & E & ->). right. split; [reflexivity|]. rewrite E. f_equal.
      unfold octet_segmented in E. apply (segmented_sound 4 (is_tag TagOctetString) [] (@app N) octet_prim octets_value (fun x => x) (fun _ => True)) in E;
        try assumption; try reflexivity.
      * destruct E as [_ ->]. reflexivity.
      * split; [exact I|reflexivity].
      * intros; split; [exact I|reflexivity].
      * intros h' d' r' t' _ _ _ _ E'. injection E' as <- <-. reflexivity.
    + intros [[? _]|[_ E]]; [discriminate|]. eauto.
  - unfold octet_prim, octets_value. split.
    + intros (r & t & E & ->). injection E as <- <-. auto.
    + intros [[_ ->]|[? _]]; [|discriminate]. exists [], d. split; reflexivity.
Qed.

Lemma ex_eq {A} (P : A -> Prop) v : (exists t, P t /\ t = v) <-> P v.
Proof. split; [intros (t & H & ->); exact H|eauto]. Qed.

(** The BER parsers accept exactly the primitive strings and the segmented strings this implementation
    reads; the DER parsers accept exactly the primitive ones. *)
Theorem C19_octetstring_accept (i rem v : bytes) :
  bytes_ok i ->
  (parse_ber octet_codec i = Ok (rem, v) <-> string_input 4 octets_value i rem v)
  /\ (from_ber octet_codec i = Ok (rem, v) <-> string_input 4 octets_value i rem v)
  /\ (parse_der octet_codec i = Ok (rem, v) <-> exists c, starts_with_object c false 4 v i rem)
  /\ (from_der octet_codec i = Ok (rem, v) <-> exists c, starts_with_object c false 4 v i rem)
  /\ (parse_ber slice_codec i = Ok (rem, v) <-> exists c, starts_with_object c false 4 v i rem)
  /\ (from_ber slice_codec i = Ok (rem, v) <-> exists c, starts_with_object c false 4 v i rem)
  /\ (parse_der slice_codec i = Ok (rem, v) <-> exists c, starts_with_object c false 4 v i rem)
  /\ (from_der slice_codec i = Ok (rem, v) <-> exists c, starts_with_object c false 4 v i rem).
Proof.
  intros Hi. rewrite !from_ber_parse_ber by (try exact Hi; intros a; reflexivity).
  assert (B : parse_ber octet_codec i = Ok (rem, v) <-> string_input 4 octets_value i rem v).
  { rewrite <- (ex_eq (fun v => parse_ber octet_codec i = Ok (rem, v))). unfold string_input.
    apply (parse_ber_spec octet_codec 4 (fun x => x) (fun k d v => k = false /\ octets_value d v \/ k = true /\ seg 4 octets_value 5 true d v));
      [reflexivity| |exact Hi]. apply octet_content_iff. }
  assert (G : (exists c k content, starts_with_object c k 4 content i rem /\ (k = false /\ v = content))
      <-> exists c, starts_with_object c false 4 v i rem).
  { split; [intros (c & k & d & H & -> & ->); eauto|intros [c H]; eauto 8]. }
  assert (SB : parse_ber slice_codec i = Ok (rem, v) <-> exists c, starts_with_object c false 4 v i rem).
  { rewrite (parse_ber_prim_spec slice_codec 4 (fun d v => v = d)); try exact Hi; try reflexivity.
    - split; [intros (c & d & H & ->); eauto|intros [c H]; eauto].
    - intros h d v' Hd Hl. cbn [ber_content slice_codec]. unfold slice_ber_content. destruct (h_constructed h).
      + split; [intros [r E]; discriminate|intros [E _]; discriminate].
      + split; [intros [r E]; injection E as <- <-; auto|intros [_ ->]; eauto].
    - intros h d r v' E. cbn [ber_content slice_codec] in E. unfold slice_ber_content in E. destruct (h_constructed h); [discriminate|reflexivity]. }
  assert (D : forall p : codec bytes, plain p -> (forall x, accept_tag p x = is_tag 4 x) ->
     (forall h d, h_constructed h = false -> ber_content p h d = Ok ([], d)) ->
     (forall h d, der_content p h d = if h_constructed h then Err EConstructUnexpected else ber_content p h d) ->
     (forall a, check_constraints p a = check_primitive a) ->
     (parse_der p i = Ok (rem, v) <-> exists c, starts_with_object c false 4 v i rem)
     /\ (from_der p i = Ok (rem, v) <-> exists c, starts_with_object c false 4 v i rem)).
  { intros p Hp Ha Hb Hd Hc. split.
    - rewrite (parse_der_spec p 4 (fun k d v => k = false /\ v = d)); [exact G|exact Ha| |exact Hi].
      intros h d v' _ _. rewrite Hd. destruct (h_constructed h) eqn:K; [split; [intros [r E]; discriminate|intros [E _]; discriminate]|].
      rewrite Hb by exact K. split; [intros [r E]; injection E as <- <-; auto|intros [_ ->]; eauto].
    - rewrite (from_der_spec p 4 (fun k d v => k = false /\ v = d)); [exact G|exact Hp|exact Ha| |exact Hi].
      intros h d v' _ _. rewrite Hc. unfold check_primitive, assert_primitive. cbn [any_header].
      destruct (h_constructed h) eqn:K; [split; [intros [E _]; discriminate|intros [E _]; discriminate]|].
      rewrite Hb by exact K. split; [intros [_ [r E]]; injection E as <- <-; auto|intros [_ ->]; split; [reflexivity|eauto]]. }
  assert (D1 := D octet_codec). assert (D2 := D slice_codec).
  destruct D1 as [D1 D1'].
  { intros a; reflexivity. } { reflexivity. }
  { intros h d K. cbn. unfold octet_ber_content. rewrite K. reflexivity. }
  { intros h d. cbn. unfold octet_der_content, assert_primitive. destruct (h_constructed h); reflexivity. }
  { reflexivity. }
  destruct D2 as [D2 D2'].
  { intros a; reflexivity. } { reflexivity. }
  { intros h d K. cbn. unfold slice_ber_content. rewrite K. reflexivity. }
  { intros h d. cbn. unfold assert_primitive. destruct (h_constructed h); reflexivity. }
  { reflexivity. }
  tauto.
Qed.
Print Assumptions C19_octetstring_accept.

Lemma octet_reads d :
  (ber_reads octet_codec Universal false 4 d d /\ der_reads octet_codec Universal false 4 d d)
  /\ (ber_reads slice_codec Universal false 4 d d /\ der_reads slice_codec Universal false 4 d d).
Proof.
  split; split; (split; [reflexivity|]); intros rt rh h; (split; [exists []; reflexivity|]); try reflexivity; split; reflexivity.
Qed.

(** Round trip: every byte string, by [OctetString] and [&[u8]], in BER and DER. *)
Theorem C19_octetstring_roundtrip (d : bytes) :
  bytes_ok d -> blen d < 2 ^ 64 ->
  exists enc, to_vec (tober_octet d) = Ok enc
    /\ reads_ber octet_codec enc d /\ reads_der octet_codec enc d
    /\ reads_ber slice_codec enc d /\ reads_der slice_codec enc d.
Proof.
  intros Hd Hn. destruct (octet_reads d) as [[A B] [C D]].
  assert (W : writes (tober_octet d) Universal false 4 d) by (repeat split).
  destruct (roundtrip_ber _ _ _ _ _ _ _ W A) as (enc & E & _ & R1); [reflexivity|assumption|assumption|].
  destruct (roundtrip_der _ _ _ _ _ _ _ W B) as (enc2 & E2 & _ & R2); [reflexivity|assumption|assumption|].
  destruct (roundtrip_ber _ _ _ _ _ _ _ W C) as (enc3 & E3 & _ & R3); [reflexivity|assumption|assumption|].
  destruct (roundtrip_der _ _ _ _ _ _ _ W D) as (enc4 & E4 & _ & R4); [reflexivity|assumption|assumption|].
  rewrite E in E2, E3, E4. injection E2 as <-. injection E3 as <-. injection E4 as <-.
  exists enc. auto 6.
Qed.
Print Assumptions C19_octetstring_roundtrip.

(** Standard strings are string inputs for this implementation, except the constructed string without
    segments. *)
Lemma string_object_input {X} tag (P : bytes -> list X -> Prop) enc v x :
  0 < tag < 2 ^ 32 -> (forall v, P [] v -> v = []) ->
  string_object tag P 5 enc v -> v <> [] -> string_input tag P (enc ++ x) x v.
Proof.
  intros Ht HP0 H Hv.
  assert (Hm : tag mod 2 ^ 32 = tag) by (apply N.mod_small; lia).
  destruct (proj1 (string_objects_segs tag P Ht HP0) _ _ _ H) as (d' & c & k & l & idb & lenb & bs & Ed & E & HR & HC & HS); [lia|].
  injection Ed as <-. destruct HS as [[_ ->]|HS]; [congruence|].
  exists c, k, (content_of l bs). split.
  - exists tag, l, idb, lenb, bs. rewrite E, <- !app_assoc. auto.
  - inversion HS; subst; auto.
Qed.

Theorem C19_constructed_octetstring_partial (enc v x : bytes) :
  string_object 4 octets_value 5 enc v -> v <> [] -> bytes_ok (enc ++ x) ->
  parse_ber octet_codec (enc ++ x) = Ok (x, v) /\ from_ber octet_codec (enc ++ x) = Ok (x, v).
Proof.
  intros H Hv Hok. destruct (C19_octetstring_accept (enc ++ x) x v Hok) as (A & B & _).
  rewrite A, B. split; apply string_object_input; auto; lia.
Qed.
Print Assumptions C19_constructed_octetstring_partial.

(** Missing from the partial theorem: a constructed string without segments is rejected. *)
Theorem C19_empty_constructed_refuted :
  exists enc v, string_object 4 octets_value 5 enc v /\ bytes_ok enc /\ from_ber octet_codec enc = Err EInvalidLength
                /\ parse_ber octet_codec enc = Err EInvalidLength.
Proof.
  exists [0x24; 0x00], []. split.
  - change [0x24; 0x00] with ([0x24] ++ [0x00] ++ ([] : bytes)). apply so_definite with (c := Universal).
    + split; [split; [apply (id_low Universal true 4); reflexivity|split; [apply (lo_short 0); reflexivity|discriminate]]|].
      split; [vm_compute; discriminate|intros n E; injection E as <-; reflexivity].
    + constructor.
  - split; [repeat constructor|]. split; vm_compute; reflexivity.
Qed.
Print Assumptions C19_empty_constructed_refuted.

(** And an object with tag number 0 among the segments hides what follows: [24 09 | 04 01 41 | 80 01 ff | 04 01 42]
    is read as the single byte 41. *)
Theorem C19_hidden_segments_refuted :
  exists i seg1 foreign seg2, i = [0x24; 0x09] ++ seg1 ++ foreign ++ seg2
    /\ seg1 = [0x04; 0x01; 0x41] /\ foreign = [0x80; 0x01; 0xff] /\ seg2 = [0x04; 0x01; 0x42]
    /\ from_ber octet_codec i = Ok ([], [0x41]).
Proof. do 4 eexists. do 4 (split; [reflexivity|]). vm_compute. reflexivity. Qed.
Print Assumptions C19_hidden_segments_refuted.

(** A constructed, indefinite-length string holding a constructed one. *)
Example C19_case :
  from_ber octet_codec [0x24; 0x80; 0x04; 0x01; 0xaa; 0x24; 0x04; 0x04; 0x02; 0xbb; 0xcc; 0x00; 0x00; 0x99]
    = Ok ([0x99], [0xaa; 0xbb; 0xcc])
  /\ from_der octet_codec [0x24; 0x03; 0x04; 0x01; 0xaa] = Err EConstructUnexpected.
Proof. split; vm_compute; reflexivity. Qed.

(** ** C20: BIT STRING *)

Lemma bitstring_segmented h i v :
  bytes_ok i -> fits h i -> h_constructed h = true ->
  (seg 3 bits_value 5 true i v <-> bitstring_ber_content h i = Ok ([], packed v)).
Proof.
  intros Hi Hf K. unfold bitstring_ber_content, BITSTRING_MAX_RECURSION. rewrite K. cbn [negb].
  assert (A1 : (fun t => t = packed (bs_bits t)) (mk_bits 0 [] 0) /\ bs_bits (mk_bits 0 [] 0) = []) by (split; reflexivity).
  assert (A2 : forall a b, a = packed (bs_bits a) ->
     bitstring_append a b = packed (bs_bits (bitstring_append a b)) /\ bs_bits (bitstring_append a b) = bs_bits a ++ bs_bits b).
  { intros a b E. rewrite E, append_packed, !packed_bits. auto. }
  assert (A3 : forall h d r t, bytes_ok d -> d <> [] -> h_constructed h = false ->
     h_length h = Definite (blen d) -> bitstring_prim h d = Ok (r, t) -> bits_value d (bs_bits t)).
  { intros h' d r t _ _ _ Hl E. apply bitstring_prim_ok in E as (u & bs & -> & H1 & H2 & _ & ->); [|exact Hl].
    apply bits_value_iff. eauto 8. }
  assert (A4 : forall h d v, bytes_ok d -> d <> [] -> h_constructed h = false ->
     h_length h = Definite (blen d) -> bits_value d v -> exists r t, bitstring_prim h d = Ok (r, t) /\ bs_bits t = v).
  { intros h' d v' _ _ _ Hl E. apply bits_value_iff in E as (u & bs & -> & H1 & H2 & ->).
    eexists _, _. split; [apply bitstring_prim_ok; [exact Hl|]; eauto 8|reflexivity]. }
  rewrite <- K at 1.
  rewrite (segmented_iff 3 (is_tag TagBitString) (mk_bits 0 [] 0) bitstring_append bitstring_prim bits_value bs_bits
             (fun t => t = packed (bs_bits t))); try assumption; try reflexivity; try lia.
  split; [|intros E; exists (packed v); split; [exact E|apply packed_bits]].
  intros (t & E & <-). rewrite E. f_equal. f_equal.
  (* the result of a constructed string is packed *)
  cbn [parse_ber_segmented] in E. rewrite K in E.
  destruct (blen i =? 0); [discriminate|]. apply bind_ok in E as ([r2 data] & _ & E). apply bind_ok in E as (t' & E & E').
  injection E' as _ ->. revert E. generalize (S (length data)). intros f.
  assert (G : forall f data a, a = packed (bs_bits a) ->
    seg_loop (is_tag TagBitString) bitstring_append
      (parse_ber_segmented (is_tag TagBitString) (mk_bits 0 [] 0) bitstring_append bitstring_prim 4) f data a = Ok t ->
    t = packed (bs_bits t)).
  { clear - A2. induction f as [|f IH]; intros data a Ha E; [discriminate|]. cbn [seg_loop] in E.
    destruct (blen data =? 0); [injection E as <-; exact Ha|]. apply bind_ok in E as ([rem obj] & _ & E).
    destruct (_ =? TagEndOfContent); [injection E as <-; exact Ha|]. destruct (negb _); [discriminate|].
    destruct (blen _ =? 0); [eapply IH; eassumption|]. apply bind_ok in E as ([r part] & _ & E).
    eapply IH; [|exact E]. apply A2. exact Ha. }
  intros E. apply (G _ _ _ (proj1 A1) E).
Qed.

Lemma bitstring_content_prim h d r t :
  bytes_ok d -> fits h d -> h_constructed h = false ->
  (bitstring_ber_content h d = Ok (r, t) <-> 
   exists u bs, d = u :: bs /\ u <= 7 /\ u <= 8 * blen bs /\ r = [] /\ t = mk_bits 0 bs (8 * length bs - N.to_nat u)).
Proof.
  intros Hd Hf K. unfold bitstring_ber_content. rewrite K. cbn [negb]. apply bitstring_prim_ok.
  unfold fits in Hf. destruct (h_length h); [rewrite Hf; reflexivity|congruence].
Qed.

Lemma bitstring_content_iff h d v :
  bytes_ok d -> fits h d ->
  ((exists r t, bitstring_ber_content h d = Ok (r, t) /\ bs_bits t = v) <->
   (h_constructed h = false /\ bits_value d v \/ h_constructed h = true /\ seg 3 bits_value 5 true d v)).
Proof.
  intros Hd Hf. destruct (h_constructed h) eqn:K.
  - assert (S := bitstring_segmented h d v Hd Hf K). split.
    + intros (r & t & E & <-). right. split; [reflexivity|].
      assert (E' := E). unfold bitstring_ber_content in E'. rewrite K in E'. cbn [negb] in E'.
      apply (segmented_sound 3 (is_tag TagBitString) (mk_bits 0 [] 0) bitstring_append bitstring_prim bits_value bs_bits
             (fun t => t = packed (bs_bits t))) in E'; try assumption; try reflexivity.
      * rewrite K in E'. apply E'.
      * split; reflexivity.
      * intros a b Ea. rewrite Ea, append_packed, !packed_bits. auto.
      * intros h' d' r' t' _ _ _ Hl E2. apply bitstring_prim_ok in E2 as (u & bs & -> & H1 & H2 & _ & ->); [|exact Hl].
        apply bits_value_iff. eauto 8.
    + intros [[? _]|[_ H]]; [discriminate|]. exists [], (packed v). split; [apply S; exact H|apply packed_bits].
  - rewrite bits_value_iff. split.
    + intros (r & t & E & <-). left. split; [reflexivity|].
      apply bitstring_content_prim in E as (u & bs & -> & H1 & H2 & _ & ->); try assumption. eauto 8.
    + intros [[_ (u & bs & -> & H1 & H2 & ->)]|[? _]]; [|discriminate].
      eexists _, _. split; [apply bitstring_content_prim; try assumption; eauto 8|reflexivity].
Qed.

(** A DER content: as [bits_value], the unused bits being zero (11.2.1). *)
Definition der_bits_value (content : bytes) (v : list bool) : Prop :=
  exists unused bs pad, content = unused :: bs /\ bytes_bits bs (v ++ pad) /\ blen pad = unused /\ unused <= 7
                        /\ Forall (fun b => b = false) pad.

Lemma der_bits_value_iff d v : der_bits_value d v <-> bits_value d v /\ zero_padding d.
Proof.
  unfold der_bits_value, bits_value, zero_padding. split.
  - intros (u & bs & pad & -> & H & L & Hu & F). split; [exists u, bs, pad; auto|].
    apply bytes_bits_iff in H. exists u, bs, v, pad. auto.
  - intros [(u & bs & pad & -> & H & L & Hu) (u' & bs' & v' & pad' & E & E' & L' & F)]. injection E as <- <-.
    apply bytes_bits_iff in H. rewrite E' in H. exists u, bs, pad. split; [reflexivity|]. split; [apply bytes_bits_iff; congruence|].
    split; [exact L|]. split; [exact Hu|]. unfold blen in L, L'. assert (LL : length v = length v').
    { apply (f_equal (@length bool)) in H. rewrite !app_length in H. lia. }
    apply app_inj_pre in H as [_ ->]; [exact F|exact LL].
Qed.

(** Acceptance, and the bits obtained. *)
Theorem C20_bitstring_accept (i rem : bytes) (v : list bool) :
  bytes_ok i ->
  let gives r := exists t, r = Ok (rem, t) /\ bs_bits t = v in
  (gives (parse_ber bitstring_codec i) <-> string_input 3 bits_value i rem v)
  /\ (gives (from_ber bitstring_codec i) <-> string_input 3 bits_value i rem v)
  /\ (gives (parse_der bitstring_codec i) <->
        exists c content, starts_with_object c false 3 content i rem /\ bits_value content v)
  /\ (gives (from_der bitstring_codec i) <->
        exists c content, starts_with_object c false 3 content i rem /\ der_bits_value content v).
Proof.
  intros Hi. cbv zeta.
  assert (B : (exists t, parse_ber bitstring_codec i = Ok (rem, t) /\ bs_bits t = v) <-> string_input 3 bits_value i rem v).
  { apply (parse_ber_spec bitstring_codec 3 bs_bits (fun k d v => k = false /\ bits_value d v \/ k = true /\ seg 3 bits_value 5 true d v));
      [reflexivity| |exact Hi]. apply bitstring_content_iff. }
  assert (F : forall h d, h_length h = Definite (blen d) -> fits h d).
  { intros h d Hl. unfold fits. rewrite Hl. reflexivity. }
  assert (Hb : forall c k content, starts_with_object c k 3 content i rem -> bytes_ok content).
  { intros c k content (u & idb & lenb & _ & _ & E). rewrite E, !bytes_ok_app in Hi. tauto. }
  split; [exact B|]. split.
  { rewrite <- B. split; intros (t & E & V); exists t; (split; [|exact V]);
      [apply from_ber_parse_ber in E|apply from_ber_parse_ber]; try assumption; intros a; reflexivity. }
  split.
  - assert (S : forall t, parse_der bitstring_codec i = Ok (rem, t) <-> exists c k content, starts_with_object c k 3 content i rem
      /\ (k = false /\ bitstring_ber_content (mk_header Universal false 3 (Definite (blen content)) None None) content = Ok ([], t))).
    { intros t. apply (parse_der_spec bitstring_codec 3 (fun k content t => k = false
          /\ bitstring_ber_content (mk_header Universal false 3 (Definite (blen content)) None None) content = Ok ([], t)));
        [reflexivity| |exact Hi].
      intros h d t' Hd Hl. cbn [der_content bitstring_codec]. unfold bitstring_der_content, assert_primitive.
      destruct (h_constructed h) eqn:K; cbn [bind]; [split; [intros [r H]; discriminate|intros [H _]; discriminate]|].
      split.
      - intros [r H]. split; [reflexivity|]. apply bitstring_content_prim in H as (u & bs & E1 & E2 & E3 & _ & E4); auto.
        apply bitstring_content_prim; auto; try reflexivity. exists u, bs. auto.
      - intros [_ H]. exists []. apply bitstring_content_prim in H; auto; try reflexivity. apply bitstring_content_prim; auto. }
    split.
    + intros (t & E & V). apply S in E as (c & k & content & H1 & -> & H2). exists c, content. split; [exact H1|].
      apply bits_value_iff. apply bitstring_content_prim in H2 as (u & bs & -> & E2 & E3 & _ & ->); eauto; try reflexivity.
      exists u, bs. rewrite <- V. auto.
    + intros (c & content & H1 & H2). apply bits_value_iff in H2 as (u & bs & E1 & E2 & E3 & E4).
      exists (mk_bits 0 bs (8 * length bs - N.to_nat u)). split; [|symmetry; exact E4].
      apply S. exists c, false, content. split; [exact H1|]. split; [reflexivity|].
      apply bitstring_content_prim; eauto; try reflexivity. exists u, bs. auto.
  - assert (S : forall t, from_der bitstring_codec i = Ok (rem, t) <-> exists c k content, starts_with_object c k 3 content i rem
      /\ (k = false /\ zero_padding content /\ bitstring_ber_content (mk_header Universal false 3 (Definite (blen content)) None None) content = Ok ([], t))).
    { intros t. apply (from_der_spec bitstring_codec 3 (fun k content t => k = false /\ zero_padding content
          /\ bitstring_ber_content (mk_header Universal false 3 (Definite (blen content)) None None) content = Ok ([], t)));
        [intros a; reflexivity|reflexivity| |exact Hi].
      intros h d t' Hd Hl. cbn [check_constraints ber_content bitstring_codec].
      destruct (h_constructed h) eqn:K.
      { split; [|intros [H _]; discriminate]. unfold bitstring_check, assert_primitive. cbn [any_header]. rewrite K. intros [H _]. discriminate. }
      split.
      - intros [C [r H]]. split; [reflexivity|]. apply bitstring_content_prim in H as (u & bs & -> & E2 & E3 & _ & ->); auto.
        split.
        + apply (bitstring_check_ok h (u :: bs) (firstn (8 * length bs - N.to_nat u) (bits_of bs)) Hd Hl) in C; [apply C|].
          apply bits_value_iff. eauto 8.
        + apply bitstring_content_prim; auto; try reflexivity. eauto 8.
      - intros (_ & Z & H). apply bitstring_content_prim in H as (u & bs & -> & E2 & E3 & _ & ->); auto; try reflexivity.
        split.
        + apply (bitstring_check_ok h (u :: bs) (firstn (8 * length bs - N.to_nat u) (bits_of bs)) Hd Hl); [|auto].
          apply bits_value_iff. eauto 8.
        + exists []. apply bitstring_content_prim; auto. eauto 8. }
    split.
    + intros (t & E & V). apply S in E as (c & k & content & H1 & -> & Z & H2). exists c, content. split; [exact H1|].
      apply der_bits_value_iff. split; [|exact Z].
      apply bits_value_iff. apply bitstring_content_prim in H2 as (u & bs & -> & E2 & E3 & _ & ->); eauto; try reflexivity.
      exists u, bs. rewrite <- V. auto.
    + intros (c & content & H1 & H2). apply der_bits_value_iff in H2 as [H2 Z].
      apply bits_value_iff in H2 as (u & bs & E1 & E2 & E3 & E4).
      exists (mk_bits 0 bs (8 * length bs - N.to_nat u)). split; [|symmetry; exact E4].
      apply S. exists c, false, content. split; [exact H1|]. split; [reflexivity|]. split; [exact Z|].
      apply bitstring_content_prim; eauto; try reflexivity. exists u, bs. auto.
Qed.
Print Assumptions C20_bitstring_accept.

(** Round trip.  Every bit sequence stored from the first bit of its first byte is written with the
    right number of zero padding bits and read back by the four entry points. *)
Lemma packed_wf bits : length (bs_raw (packed bits)) = elts (length bits).
Proof. apply bytes_of_bits_length. Qed.

Lemma writes_bitstring b :
  length (bs_raw b) = elts (bs_len b) ->
  writes (tober_bitstring b) Universal false 3 ((8 * blen (bs_raw b) - N.of_nat (bs_len b)) :: bs_raw b).
Proof.
  intros H. assert (L : blen (bs_raw b) = (N.of_nat (bs_len b) + 7) / 8) by (unfold blen; rewrite H; apply elts_N).
  unfold writes, tober_bitstring. cbn [tb_encoder tb_class tb_constructed tb_tag tb_content_len tb_write_content].
  split; [reflexivity|]. rewrite N.mod_small by lia. rewrite blen_cons.
  split; [f_equal; lia|f_equal; f_equal; lia].
Qed.

(** Bit strings stored from the first bit of their first byte, with no byte to spare. *)
Lemma aligned_bitstring b :
  bs_head b = 0%nat -> length (bs_raw b) = elts (bs_len b) -> bytes_ok (bs_raw b) -> blen (bs_raw b) < 2 ^ 64 - 1 ->
  let content := (8 * blen (bs_raw b) - N.of_nat (bs_len b)) :: bs_raw b in
  bits_value content (bs_bits b)
  /\ exists enc, to_vec (tober_bitstring b) = Ok enc /\ starts_with_object Universal false 3 content enc []
    /\ bytes_ok enc /\ reads_ber bitstring_codec enc b
    /\ (forall x, bytes_ok x -> parse_der bitstring_codec (enc ++ x) = Ok (x, b))
    /\ (der_bits_value content (bs_bits b) -> reads_der bitstring_codec enc b).
Proof.
  intros Hh Hw Hraw Hn. set (u := 8 * blen (bs_raw b) - N.of_nat (bs_len b)). intros cb.
  assert (L : blen (bs_raw b) = (N.of_nat (bs_len b) + 7) / 8) by (unfold blen; rewrite Hw; apply elts_N).
  assert (Hu : u <= 7) by (unfold u; lia).
  assert (Hcb : bytes_ok cb) by (constructor; [lia|exact Hraw]).
  assert (Hcl : blen cb < 2 ^ 64) by (unfold cb; rewrite blen_cons; lia).
  assert (Et : mk_bits 0 (bs_raw b) (8 * length (bs_raw b) - N.to_nat u) = b).
  { destruct b as [hd raw len]. cbn [bs_head bs_raw bs_len] in *. subst hd. f_equal. unfold u. unfold blen in *. lia. }
  assert (V : bits_value cb (bs_bits b)).
  { apply bits_value_iff. exists u, (bs_raw b). split; [reflexivity|]. split; [exact Hu|]. split; [unfold u; lia|].
    rewrite <- Et at 1. reflexivity. }
  assert (P : forall rt rh, bitstring_ber_content (mk_header Universal false 3 (Definite (blen cb)) rt rh) cb = Ok ([], b)).
  { intros rt rh. apply bitstring_content_prim; [exact Hcb|reflexivity|reflexivity|]. exists u, (bs_raw b).
    split; [reflexivity|]. split; [exact Hu|]. split; [unfold u; lia|]. split; [reflexivity|]. symmetry. exact Et. }
  assert (F : forall rt rh, try_from_any bitstring_codec (mk_any (mk_header Universal false 3 (Definite (blen cb)) rt rh) cb) = Ok b).
  { intros rt rh. apply default_try_from_ok. split; [reflexivity|]. exists []. apply P. }
  assert (W := writes_bitstring b Hw). fold u cb in W.
  assert (B : ber_reads bitstring_codec Universal false 3 cb b).
  { split; [reflexivity|]. intros rt rh h. split; [exists []; apply P|apply F]. }
  split; [exact V|].
  destruct (encode_writes _ _ _ _ _ W) as (idb & lenb & E3 & _ & _ & _ & HR); [reflexivity|exact Hcl|].
  destruct (roundtrip_ber _ _ _ _ _ _ _ W B) as (enc & E & Ok1 & R1); [reflexivity|assumption|assumption|].
  assert (Eenc : enc = idb ++ lenb ++ cb) by (unfold to_vec in E; rewrite E3 in E; injection E as <-; reflexivity).
  exists enc. split; [exact E|]. split; [|split; [exact Ok1|split; [exact R1|split]]].
  - exists 3, idb, lenb. rewrite app_nil_r. auto.
  - intros x Hx. apply parse_der_iff; [apply bytes_ok_app; auto|]. exists Universal, false, 3, idb, lenb, cb, [].
    split; [exact HR|]. split; [rewrite Eenc, <- !app_assoc; reflexivity|]. split; [reflexivity|]. apply P.
  - intros DV. assert (D : der_reads bitstring_codec Universal false 3 cb b).
    { split; [reflexivity|]. intros rt rh h. split; [exists []; apply P|]. split; [apply F|].
      apply (bitstring_check_ok h cb _ Hcb eq_refl V). split; [reflexivity|]. apply der_bits_value_iff in DV. apply DV. }
    destruct (roundtrip_der _ _ _ _ _ _ _ W D) as (enc2 & E2 & _ & R2); [reflexivity|assumption|assumption|].
    rewrite E in E2. injection E2 as <-. exact R2.
Qed.

Theorem C20_bitstring_roundtrip (bits : list bool) :
  blen bits < 2 ^ 64 ->
  exists enc t, to_vec (tober_bitstring (bitstring_from_slice 0 bits)) = Ok enc
    /\ bs_bits t = bits /\ reads_ber bitstring_codec enc t /\ reads_der bitstring_codec enc t
    /\ exists content, starts_with_object Universal false 3 content enc [] /\ der_bits_value content bits.
Proof.
  intros Hn. change (bitstring_from_slice 0 bits) with (packed bits).
  pose proof (packed_wf bits) as Hw. change (length bits) with (bs_len (packed bits)) in Hw.
  assert (Hr : blen (bs_raw (packed bits)) = (blen bits + 7) / 8) by (unfold blen at 1; rewrite Hw, elts_N; reflexivity).
  destruct (aligned_bitstring (packed bits) eq_refl Hw) as (V & enc & E & S & _ & R1 & _ & R3).
  { apply bytes_of_bits_ok. }
  { rewrite Hr. change (2 ^ 64) with 18446744073709551616 in *. lia. }
  set (u := 8 * blen (bs_raw (packed bits)) - N.of_nat (bs_len (packed bits))) in *.
  assert (Hlen : N.of_nat (bs_len (packed bits)) = blen bits) by reflexivity.
  rewrite packed_bits in V, R3.
  assert (DV : der_bits_value (u :: bs_raw (packed bits)) bits).
  { exists u, (bs_raw (packed bits)), (repeat false (N.to_nat u)). split; [reflexivity|]. split.
    { apply bytes_bits_iff. rewrite packed_raw_bits. f_equal. f_equal. unfold u, blen. rewrite Hw. cbn [packed bitstring_from_slice bs_len]. lia. }
    split; [unfold blen; rewrite repeat_length; lia|]. split; [unfold u; lia|].
    apply Forall_forall. intros x Hx. apply repeat_spec in Hx. exact Hx. }
  exists enc, (packed bits). split; [exact E|]. split; [apply packed_bits|]. split; [exact R1|]. split; [apply R3; exact DV|].
  eauto.
Qed.
Print Assumptions C20_bitstring_roundtrip.

(** [BitString::new(unused, bytes)]: read back with the same bits by the BER parsers and [parse_der];
    by [from_der] exactly when the padding bits are zero. *)
Theorem C20_new_roundtrip_partial (unused : N) (s : bytes) (b : bitstring) :
  bytes_ok s -> blen s < 2 ^ 63 -> bitstring_new unused s = Ok b ->
  bits_value (unused :: s) (bs_bits b) /\
  exists enc, to_vec (tober_bitstring b) = Ok enc /\ reads_ber bitstring_codec enc b
    /\ (forall x, bytes_ok x -> parse_der bitstring_codec (enc ++ x) = Ok (x, b))
    /\ (der_bits_value (unused :: s) (bs_bits b) -> reads_der bitstring_codec enc b)
    /\ (~ der_bits_value (unused :: s) (bs_bits b) -> forall x r t, bytes_ok x -> from_der bitstring_codec (enc ++ x) <> Ok (r, t)).
Proof.
  intros Hs Hn E. unfold bitstring_new in E.
  destruct ((unused <? 8) && (unused <? 8 * blen s)) eqn:C; [|discriminate]. injection E as <-.
  set (b := mk_bits 0 s (8 * length s - N.to_nat unused)).
  assert (Hu : unused < 8 /\ unused < 8 * blen s) by lia. clear C.
  assert (Hw : length (bs_raw b) = elts (bs_len b)).
  { cbn [b bs_raw bs_len]. unfold elts, blen in *. lia. }
  assert (Eu : 8 * blen (bs_raw b) - N.of_nat (bs_len b) = unused).
  { cbn [b bs_raw bs_len]. unfold blen in *. lia. }
  destruct (aligned_bitstring b eq_refl Hw Hs) as (V & enc & E & S & Hok & R1 & R2 & R3).
  { change (2 ^ 64 - 1) with 18446744073709551615. change (2 ^ 63) with 9223372036854775808 in Hn. cbn [b bs_raw]. lia. }
  rewrite Eu in *. split; [exact V|]. exists enc. split; [exact E|]. split; [exact R1|]. split; [exact R2|]. split; [exact R3|].
  intros ND x r t Hx F.
  assert (Hi : bytes_ok (enc ++ x)) by (apply bytes_ok_app; auto).
  destruct (C20_bitstring_accept (enc ++ x) r (bs_bits t) Hi) as (_ & _ & A & B).
  destruct (proj1 B) as (c & content & S' & DV); [eauto|].
  destruct S as (u1 & idb & lenb & HR & Hm & E1). destruct S' as (u2 & idb' & lenb' & HR' & Hm' & E2).
  rewrite E1, app_nil_r, <- !app_assoc in E2.
  assert (Hcx : bytes_ok ((unused :: bs_raw b) ++ x) /\ bytes_ok (content ++ r)).
  { split.
    - rewrite E1, app_nil_r, <- !app_assoc in Hi. rewrite !bytes_ok_app in Hi. rewrite bytes_ok_app. tauto.
    - rewrite E1, app_nil_r, <- !app_assoc, E2 in Hi. rewrite !bytes_ok_app in Hi. rewrite bytes_ok_app. tauto. }
  destruct (readable_det _ _ _ _ _ _ _ _ _ _ _ _ _ _ HR HR' (proj1 Hcx) (proj2 Hcx) E2) as (_ & _ & _ & El & _ & _ & E3).
  injection El as El. apply app_inj_pre in E3 as [E3 _]; [|apply Nat2N.inj; exact El]. subst content.
  apply ND. apply der_bits_value_iff in DV as [_ Z]. apply der_bits_value_iff. auto.
Qed.
Print Assumptions C20_new_roundtrip_partial.

(** The full claim fails: the padding bits given to [BitString::new] are kept and [from_der] rejects them. *)
Theorem C20_padding_refuted :
  exists b enc, bitstring_new 4 [0xff] = Ok b /\ to_vec (tober_bitstring b) = Ok enc
    /\ from_der bitstring_codec enc = Err (EDerConstraintFailed DCUnusedBitsNotZero)
    /\ parse_der bitstring_codec enc = Ok ([], b).
Proof. eexists _, _. split; [vm_compute; reflexivity|]. split; [vm_compute; reflexivity|]. split; vm_compute; reflexivity. Qed.
Print Assumptions C20_padding_refuted.

(** A slice that does not start at the first bit of a byte is written with the wrong bits: four ones taken
    from the second half of a byte come out as four zeroes; and nine bits, of which seven are in the first
    byte, announce three content bytes and write four. *)
Theorem C20_unaligned_refuted :
  (exists enc t, to_vec (tober_bitstring (bitstring_from_slice 4 [true; true; true; true])) = Ok enc
     /\ from_ber bitstring_codec enc = Ok ([], t) /\ bs_bits t = [false; false; false; false])
  /\ (let b := bitstring_from_slice 7 (repeat true 10) in
      tb_content_len (tober_bitstring b) = Definite 3
      /\ exists content n, tb_write_content (tober_bitstring b) = Ok (content, n) /\ blen content = 4).
Proof. split; [|split]; repeat eexists; vm_compute; reflexivity. Qed.
Print Assumptions C20_unaligned_refuted.

(** The empty bit string cannot be built with [BitString::new]. *)
Theorem C20_new_empty_refuted : bitstring_new 0 [] = Panic.
Proof. reflexivity. Qed.

(** Constructed strings: the bits of the segments in order; the result is stored with zero padding. *)
Theorem C20_constructed_bitstring_partial (enc x : bytes) (v : list bool) :
  string_object 3 bits_value 5 enc v -> v <> [] -> bytes_ok (enc ++ x) ->
  (exists t, parse_ber bitstring_codec (enc ++ x) = Ok (x, t) /\ bs_bits t = v)
  /\ (exists t, from_ber bitstring_codec (enc ++ x) = Ok (x, t) /\ bs_bits t = v).
Proof.
  intros H Hv Hok. destruct (C20_bitstring_accept (enc ++ x) x v Hok) as (A & B & _).
  rewrite A, B. split; apply string_object_input; auto; try lia;
    intros v' (u & bs & pad & E & _); discriminate.
Qed.
Print Assumptions C20_constructed_bitstring_partial.

(** Missing: the constructed string without segments is rejected. *)
Theorem C20_empty_constructed_refuted :
  exists enc, string_object 3 bits_value 5 enc [] /\ from_ber bitstring_codec enc = Err EInvalidLength.
Proof.
  exists [0x23; 0x00]. split; [|vm_compute; reflexivity].
  change [0x23; 0x00] with ([0x23] ++ [0x00] ++ ([] : bytes)). apply so_definite with (c := Universal); [|constructor].
  split; [split; [apply (id_low Universal true 3); reflexivity|split; [apply (lo_short 0); reflexivity|discriminate]]|].
  split; [vm_compute; discriminate|intros n E; injection E as <-; reflexivity].
Qed.
Print Assumptions C20_empty_constructed_refuted.

Example C20_case :
  to_vec (tober_bitstring (bitstring_from_slice 0 [true; false; true; true; false; true; true; true; true; true]))
    = Ok [0x03; 0x03; 0x06; 0xb7; 0xc0]
  /\ from_ber bitstring_codec [0x23; 0x80; 0x03; 0x02; 0x00; 0xb7; 0x23; 0x04; 0x03; 0x02; 0x06; 0xff; 0x00; 0x00; 0x99]
     = Ok ([0x99], mk_bits 0 [0xb7; 0xc0] 10)
  /\ from_der bitstring_codec [0x03; 0x03; 0x06; 0xb7; 0xc0] = Ok ([], mk_bits 0 [0xb7; 0xc0] 10).
Proof. repeat split; vm_compute; reflexivity. Qed.
