(** C05, C06, C07, C71 for the types of PTypes.v and PDerive.v. *)
From Verif Require Import Base PArith MHeader MEncode SHeader PHeader PEncode MBer SBer PBer PIter PCodec.
From Verif Require Import MInt MSeg MOid MText MTime MCont PropTag PropItems PSafe.
From Verif Require Import SCont SBase PTypes MPdv MDerive SDerive PDerive.

(** ** Base types *)

Lemma int_content_sane w : sane_content (int_ber_content w).
Proof. intros h d Hd. unfold int_ber_content, decode_array_int, decode_array_uint. sane_tac. Qed.
Lemma check_int_input_sane d : sane (check_der_int_input d).
Proof. destruct d as [|a [|b d]]; [discriminate|exact I|]. cbn [check_der_int_input]. sane_tac. Qed.
Lemma uint_content_sane w : sane_content (uint_ber_content w).
Proof. intros h d Hd. unfold uint_ber_content, decode_array_uint. sane_tac. Qed.
Lemma check_int_sane : sane_any check_der_int.
Proof. intros a Ha. unfold check_der_int. sane_tac. apply check_int_input_sane. Qed.
Lemma integer_content_sane : sane_content integer_ber_content.
Proof. intros h d Hd. unfold integer_ber_content. sane_tac. apply der_get_content_sane. Qed.
Lemma boolean_content_sane : sane_content boolean_ber_content.
Proof. intros h d Hd. unfold boolean_ber_content. sane_tac. destruct d; cbn [be_u8 sane]; [lia|exact I]. Qed.
Lemma boolean_der_sane : sane_content boolean_der_content.
Proof. intros h d Hd. unfold boolean_der_content. sane_tac. apply boolean_content_sane, Hd. Qed.

Lemma ber_get_content_safe h i : bytes_ok i -> sane (ber_get_content h i) /\
  forall r d, ber_get_content h i = Ok (r, d) -> bytes_ok d.
Proof.
  intros Hi. unfold ber_get_content. split; [apply object_content_sane, Hi|].
  intros r d E. exact (ber_object_content_data _ _ _ _ _ Hi E).
Qed.

Lemma seg_loop_sane {T} accept (append : T -> T -> T) seg : sane_content seg ->
  forall n d v, (length d < n)%nat -> bytes_ok d -> sane (seg_loop accept append seg n d v).
Proof.
  intros H. induction n as [|n IH]; intros d v Hn Hd; [lia|]. cbn [seg_loop].
  destruct (blen d =? 0); [exact I|]. apply sane_bind; [apply sane_close, any_parse_ber_sane, Hd|]. intros [rem o] E.
  assert (E' : any_parse_ber d = Ok (rem, o)) by (destruct (any_parse_ber d); cbn [close] in E; congruence).
  destruct (any_ber_next _ _ _ Hd E') as (Hl & Hr & Ho). cbv zeta.
  destruct (_ =? TagEndOfContent); [exact I|]. destruct (negb _); [discriminate|].
  destruct (blen (any_data o) =? 0); [apply IH; [lia|exact Hr]|].
  apply sane_bind; [apply H, Ho|]. intros [? part] _. apply IH; [lia|exact Hr].
Qed.
Lemma segmented_sane {T} accept (dflt : T) append prim n :
  sane_content prim -> sane_content (parse_ber_segmented accept dflt append prim n).
Proof.
  intros H. induction n as [|n IH]; intros h i Hi; [discriminate|]. cbn [parse_ber_segmented].
  destruct (ber_get_content_safe h i Hi) as [S1 S2]. destruct (blen i =? 0); [discriminate|]. destruct (h_constructed h).
  - apply sane_bind; [destruct (is_definite (h_length h)); [exact S1|exact I]|]. intros [rem d] E.
    assert (Hd : bytes_ok d) by (destruct (is_definite (h_length h)); [exact (S2 _ _ E)|injection E as _ <-; exact Hi]).
    apply sane_bind; [apply seg_loop_sane; [exact IH|lia|exact Hd]|]. intros v _. exact I.
  - apply sane_bind; [exact S1|]. intros [rem d] E. apply sane_bind; [apply H; exact (S2 _ _ E)|]. intros [? t] _. exact I.
Qed.
Lemma octet_segmented_sane : sane_content octet_segmented.
Proof. apply segmented_sane. intros h d Hd. exact I. Qed.
Lemma octet_content_sane : sane_content octet_ber_content.
Proof. intros h d Hd. unfold octet_ber_content, octet_prim. sane_tac. apply octet_segmented_sane, Hd. Qed.
Lemma slice_content_sane : sane_content slice_ber_content.
Proof. intros h d Hd. unfold slice_ber_content. sane_tac. Qed.
Lemma bitstring_prim_sane : sane_content bitstring_prim.
Proof. intros h d Hd. unfold bitstring_prim. sane_tac. apply ber_get_content_safe, Hd. Qed.
Lemma bitstring_content_sane : sane_content bitstring_ber_content.
Proof.
  intros h d Hd. unfold bitstring_ber_content. sane_tac; [apply bitstring_prim_sane, Hd|].
  apply segmented_sane; [apply bitstring_prim_sane|exact Hd].
Qed.
Lemma oid_content_sane : sane_content oid_ber_content.
Proof. intros h d Hd. unfold oid_ber_content. sane_tac. Qed.
Lemma charset_sane k i : sane (test_valid_charset k i).
Proof. unfold test_valid_charset. destruct k; cbv zeta; sane_tac. Qed.
Lemma string_content_sane k : sane_content (string_ber_content k).
Proof. intros h d Hd. unfold string_ber_content. sane_tac; [apply octet_segmented_sane, Hd|apply charset_sane]. Qed.
Lemma wide_data_sane : sane_content wide_data.
Proof. intros h d Hd. unfold wide_data. sane_tac. apply octet_segmented_sane, Hd. Qed.
Lemma bmp_content_sane : sane_content bmp_ber_content.
Proof. intros h d Hd. unfold bmp_ber_content. sane_tac. apply wide_data_sane, Hd. Qed.
Lemma universal_content_sane : sane_content universal_ber_content.
Proof. intros h d Hd. unfold universal_ber_content. sane_tac. apply wide_data_sane, Hd. Qed.
Lemma raw_content_sane : sane_content raw_content.
Proof. intros h d Hd. unfold raw_content. sane_tac. apply take_sane. Qed.

Lemma decode_decimal_sane a b : sane (decode_decimal a b).
Proof. unfold decode_decimal. sane_tac. Qed.
Lemma time_seconds_sane r : sane (time_seconds r).
Proof. unfold time_seconds. destruct r as [|a [|b r]]; [discriminate|exact I|]. sane_tac. apply decode_decimal_sane. Qed.
Lemma time_zone_sane r : sane (time_zone r).
Proof. unfold time_zone. destruct r as [|a [|b [|c [|d [|e [|f r]]]]]]; sane_tac; apply decode_decimal_sane. Qed.
Lemma utc_bytes_sane i : sane (utc_from_bytes i).
Proof. unfold utc_from_bytes. sane_tac; first [apply decode_decimal_sane|apply time_seconds_sane|apply time_zone_sane]. Qed.
Lemma frac_loop_sane i : forall n f, sane (frac_loop n f i).
Proof. induction i as [|b i IH]; intros n f; cbn [frac_loop]; sane_tac. apply IH. Qed.
Lemma time_fraction_sane r : sane (time_fraction r).
Proof. unfold time_fraction. sane_tac. apply frac_loop_sane. Qed.
Lemma gen_bytes_sane i : sane (gen_from_bytes i).
Proof.
  unfold gen_from_bytes. cbv zeta.
  sane_tac; first [apply decode_decimal_sane|apply time_seconds_sane|apply time_fraction_sane|apply time_zone_sane].
Qed.
Lemma gen_der_text_sane i : sane (gen_der_text i).
Proof. unfold gen_der_text. sane_tac. Qed.
Lemma utc_content_sane : sane_content utc_ber_content.
Proof. intros h d Hd. unfold utc_ber_content. sane_tac. apply utc_bytes_sane. Qed.
Lemma utc_der_sane : sane_content utc_der_content.
Proof. intros h d Hd. unfold utc_der_content. sane_tac. apply utc_bytes_sane. Qed.
Lemma gen_content_sane : sane_content gen_ber_content.
Proof. intros h d Hd. unfold gen_ber_content. sane_tac. apply gen_bytes_sane. Qed.
Lemma gen_der_sane : sane_content gen_der_content.
Proof. intros h d Hd. unfold gen_der_content. sane_tac; [apply gen_der_text_sane|apply gen_bytes_sane]. Qed.

Lemma check_primitive_sane : sane_any check_primitive.
Proof. intros a Ha. unfold check_primitive. sane_tac. Qed.

Ltac base_sane :=
  intros h d Hd; cbn [base_codec ber_content der_content bool_codec null_codec string_codec int_codec uint_codec enum_codec integer_codec
    octet_codec slice_codec bitstring_codec oid_codec str_codec ostring_codec bmp_codec universal_codec raw_codec utc_codec gen_codec]; unfold map_snd,
    enum_ber_content, enum_der_content, int_der_content, uint_der_content, integer_der_content, octet_der_content, bitstring_der_content, oid_der_content,
    string_der_content, str_ber_content, str_der_content, null_ber_content; sane_tac;
  first [apply int_content_sane, Hd|apply uint_content_sane, Hd|apply check_int_input_sane|apply integer_content_sane, Hd
        |apply boolean_content_sane, Hd|apply boolean_der_sane, Hd|apply octet_content_sane, Hd|apply slice_content_sane, Hd
        |apply bitstring_content_sane, Hd|apply oid_content_sane, Hd|apply string_content_sane, Hd|apply bmp_content_sane, Hd
        |apply universal_content_sane, Hd|apply raw_content_sane, Hd|apply utc_content_sane, Hd|apply utc_der_sane, Hd
        |apply gen_content_sane, Hd|apply gen_der_sane, Hd].

Lemma base_ber_sane {A} (b : base A) : sane_content (ber_content (base_codec b)).
Proof. destruct b; base_sane. Qed.
Lemma base_der_sane {A} (b : base A) : sane_content (der_content (base_codec b)).
Proof. destruct b; base_sane. Qed.
Lemma base_try_sane {A} (b : base A) : sane_any (try_from_any (base_codec b)).
Proof.
  destruct b; try (apply default_try_from_sane; match goal with |- sane_content _ => idtac end;
    first [exact (base_ber_sane BBool)|exact (base_ber_sane BNull)|exact (base_ber_sane (BInt w))|exact (base_ber_sane (BUint w))
          |exact (base_ber_sane BEnum)|exact (base_ber_sane BInteger)|exact (base_ber_sane BOctets)|exact (base_ber_sane BSlice)
          |exact (base_ber_sane BBits)|exact (base_ber_sane BOid)|exact (base_ber_sane (BString k))|exact (base_ber_sane BStr)
          |exact (base_ber_sane BOwnedString)|exact (base_ber_sane BBmp)|exact (base_ber_sane BUniversal)
          |exact (base_ber_sane BUtcTime)|exact (base_ber_sane BGeneralizedTime)]);
  intros a Ha; cbn [base_codec raw_codec try_from_any]; unfold raw_try_from; sane_tac.
Qed.
Definition base_no_bool {A} (b : base A) : bool := match b with BBool => false | _ => true end.
Lemma base_check_sane {A} (b : base A) : base_no_bool b = true -> sane_any (check_constraints (base_codec b)).
Proof.
  destruct b; cbn [base_no_bool]; intros Hb a Ha; try discriminate; cbn [base_codec check_constraints string_codec int_codec uint_codec
    enum_codec integer_codec octet_codec slice_codec bitstring_codec oid_codec str_codec ostring_codec bmp_codec universal_codec
    raw_codec utc_codec gen_codec null_codec]; try exact I; try (apply check_int_sane, Ha); try (apply check_primitive_sane, Ha).
  - sane_tac.
  - unfold bitstring_check. sane_tac. 
  - unfold oid_check. sane_tac.
  - apply gen_der_text_sane.
Qed.

(** ** Types *)

Lemma types_steady {A} (t : ty A) : steady_parser (parser_of t).
Proof.
  induction t; cbn [parser_of]; try destruct IHt as (H1 & H2 & H3 & H4).
  - apply codec_parser_steady; [apply base_ber_sane|apply base_der_sane].
  - apply vec_parser_steady; assumption.
  - apply array_parser_steady; assumption.
  - apply setof_parser_steady; assumption.
  - apply btreeset_parser_steady; assumption.
  - apply explicit_parser_steady; apply steady_safe; assumption.
  - apply implicit_parser_steady; assumption.
Qed.

Fixpoint no_bool {A} (t : ty A) : bool :=
  match t with
  | TBase b => base_no_bool b
  | TVec t => no_bool t
  | TArray _ t => no_bool t
  | TSetOf t => no_bool t
  | TBTreeSet _ t => no_bool t
  | TExplicit _ _ t => no_bool t
  | TImplicit _ _ t => no_bool t
  end.
Lemma no_legacy_is_steady {T} der : steady_legacy der (@no_legacy T).
Proof. apply no_legacy_steady; reflexivity. Qed.
Lemma legacy_is_steady {A} (t : ty A) der : (der = true -> no_bool t = true) -> steady_legacy der (legacy_of t).
Proof.
  induction t; cbn [legacy_of no_bool]; intros H.
  - apply codec_legacy_steady; [apply base_try_sane|]. intros E. apply base_check_sane, H, E.
  - apply vec_legacy_steady, IHt, H.
  - apply no_legacy_is_steady.
  - apply setof_legacy_steady, IHt, H.
  - apply btreeset_legacy_steady, IHt, H.
  - apply explicit_legacy_steady, IHt, H.
  - apply implicit_legacy_steady, IHt, H.
Qed.

(** ** Derived types *)

Fixpoint dno_bool {A} (t : dty A) : bool :=
  match t with
  | DTy t => no_bool t
  | DVec t => dno_bool t
  | DStruct _ fs => fno_bool fs
  | DChoice _ _ => true
  | DEnum _ => true
  | DAlias t => dno_bool t
  end
with fno_bool {A} (fs : dfields A) : bool :=
  match fs with
  | FNil => true
  | FPlain t fs => dno_bool t && fno_bool fs
  | FOption t fs => dno_bool t && fno_bool fs
  | FDefault _ t fs => dno_bool t && fno_bool fs
  | FTagged _ t fs => dno_bool t && fno_bool fs
  | FTaggedOption _ t fs => dno_bool t && fno_bool fs
  | FTaggedDefault _ _ t fs => dno_bool t && fno_bool fs
  end.

Lemma tagged_parser_steady {T} g (P : parser T) : steady_parser P -> steady_parser (tagged_parser g P).
Proof.
  intros (H1 & H2 & H3 & H4). unfold tagged_parser.
  destruct (tg_kind g); [apply explicit_parser_steady; apply steady_safe; assumption|apply implicit_parser_steady; assumption].
Qed.
Lemma tagged_legacy_steady {T} g (L : legacy T) der : steady_legacy der L -> steady_legacy der (tagged_legacy g L).
Proof. intros H. unfold tagged_legacy. destruct (tg_kind g); [apply explicit_legacy_steady, H|apply implicit_legacy_steady, H]. Qed.
Lemma tagged_optional_safe {T} hp t (p : bytes -> res (bytes * T)) : safe hp -> safe p -> safe (tagged_optional hp t p).
Proof.
  intros Hh Hp i Hi. unfold tagged_optional. destruct (blen i =? 0).
  { split; [exact I|]. intros r a E. injection E as <- _. exists []. reflexivity. }
  destruct (Hh i Hi) as [S _]. destruct (hp i) as [[rem h]|e|n|]; cbn [bind sane] in *; try (split; [exact S|discriminate]).
  destruct (h_tag h =? t).
  - destruct (Hp i Hi) as [S1 S2]. destruct (p i) as [[r x]|e|n|]; cbn [bind sane] in *; try (split; [exact S1|discriminate]).
    split; [exact I|]. intros r' a' E. injection E as <- _. exact (S2 _ _ eq_refl).
  - split; [exact I|]. intros r a E. injection E as <- _. exists []. reflexivity.
Qed.
Lemma with_default_safe {T} (d : T) p : safe p -> safe (with_default d p).
Proof.
  intros H i Hi. unfold with_default. destruct (H i Hi) as [S1 S2].
  destruct (p i) as [[r o]|e|n|]; cbn [bind sane] in *; try (split; [exact S1|discriminate]).
  split; [exact I|]. intros r' a' E. injection E as <- _. exact (S2 _ _ eq_refl).
Qed.
Lemma struct_parser_steady {T} tag (f g : fields T) : safe f -> safe g -> steady_parser (struct_parser tag f g).
Proof. intros A B. apply default_parser_steady; intros h d Hd; unfold struct_content; sane_tac; [apply A, Hd|apply B, Hd]. Qed.
Lemma check_fields_sane cs : Forall sane_any cs -> forall i, bytes_ok i -> sane (check_fields cs i).
Proof.
  induction 1 as [|c cs Hc _ IH]; intros i Hi; [exact I|]. cbn [check_fields].
  apply sane_bind; [apply sane_close, (steady_safe _ from_der_any_steady), Hi|]. intros [rem a] E.
  assert (E' : parse_der_any i = Ok (rem, a)).
  { rewrite <- from_der_any_eq. destruct (from_der any_codec i); cbn [close] in E; congruence. }
  apply sane_bind; [apply Hc; exact (parse_der_any_data _ _ _ Hi E')|]. intros ? _.
  apply IH. exact (proj2 (any_der_consuming _ _ _ Hi E')).
Qed.
Lemma struct_legacy_steady {T} tag (f g : fields T) cs der :
  safe f -> (der = true -> safe g /\ Forall sane_any cs) -> steady_legacy der (struct_legacy tag f g cs).
Proof.
  intros A B. assert (V : sane_any (struct_try_from tag f)).
  { intros a Ha. unfold struct_try_from. sane_tac. apply A, Ha. }
  split; [exact V|]. split; [apply blanket_steady, V|]. intros E. destruct (B E) as [C D]. split.
  - intros a Ha. cbn [struct_legacy lg_check]. unfold struct_check. sane_tac. apply check_fields_sane; assumption.
  - apply (der_steady _ (fun a => let* _ := assert_tag (any_header a) tag in let* (_, v) := g (any_data a) in Ok v)).
    + intros i. cbn [struct_legacy lg_from_der]. unfold struct_from_der.
      destruct (from_der any_codec i) as [[r a]|e|n|]; cbn [bind]; try reflexivity.
      destruct (assert_tag (any_header a) tag) as [[]|e|n|]; cbn [bind]; try reflexivity.
      destruct (g (any_data a)) as [[? ?]|e|n|]; reflexivity.
    + intros a Ha. sane_tac. apply C, Ha.
Qed.
Lemma alias_legacy_steady {T} (L : legacy T) der : steady_legacy der L -> steady_legacy der (alias_legacy L).
Proof.
  intros (A & B & C). split; [exact A|]. split; [apply (blanket_steady (lg_try_from L)), A|]. intros E. destruct (C E) as [D F]. split.
  - intros a Ha. cbn [alias_legacy lg_check]. unfold alias_check. sane_tac. apply D, Ha.
  - apply (der_steady _ (fun a => let* _ := assert_tag (any_header a) (lg_tag L) in lg_try_from L a)).
    + intros i. cbn [alias_legacy lg_from_der]. unfold alias_from_der.
      destruct (from_der any_codec i) as [[r a]|e|n|]; cbn [bind]; try reflexivity.
      destruct (assert_tag (any_header a) (lg_tag L)) as [[]|e|n|]; cbn [bind]; reflexivity.
    + intros a Ha. sane_tac. apply A, Ha.
Qed.
Lemma denum_steady ds : steady_parser (denum_parser ds).
Proof.
  apply default_parser_steady; intros h d Hd; unfold denum_content; sane_tac;
    [apply (base_ber_sane BEnum), Hd|apply (base_der_sane BEnum), Hd].
Qed.
Lemma tagged_variant_sane {A B} k t (p : bytes -> res (bytes * A)) content (rest : variants B) :
  safe p -> sane_content content -> sane_content rest -> sane_content (tagged_variant k t p content rest).
Proof.
  intros H1 H2 H3 h d Hd. unfold tagged_variant. destruct (h_tag h =? t).
  - apply sane_bind; [destruct k; [apply H1, Hd|apply H2, Hd]|]. intros [? ?] _. exact I.
  - apply sane_bind; [apply H3, Hd|]. intros [? ?] _. exact I.
Qed.
Lemma untagged_variant_sane {A B} accept content (rest : variants B) :
  sane_content content -> sane_content rest -> sane_content (@untagged_variant A B accept content rest).
Proof.
  intros H1 H2 h d Hd. unfold untagged_variant. sane_tac; [apply H1, Hd|apply H2, Hd].
Qed.
Lemma choice_content_sane {T} k (vs : variants T) : sane_content vs -> sane_content (choice_content k vs).
Proof. intros H h d Hd. unfold choice_content. destruct k as [[|]|]; sane_tac; apply H, Hd. Qed.

Definition dty_steady {A} (t : dty A) : Prop :=
  steady_parser (dparser_of t) /\ forall der, (der = true -> dno_bool t = true) -> steady_legacy der (dlegacy_of t).
Definition fields_safe {A} (fs : dfields A) : Prop :=
  safe (ber_of fs) /\ safe (der_of fs) /\ safe (lber_of fs)
  /\ (fno_bool fs = true -> safe (lder_of fs) /\ Forall sane_any (checks_of fs)).
Definition variants_sane {A} (vs : dvariants A) : Prop :=
  forall k, sane_content (ber_variants k vs) /\ sane_content (der_variants k vs).

(** One field in front of others. *)
Lemma field_fields_safe {A B} (p q lp lq : bytes -> res (bytes * A)) (c : any -> res unit) (nb : bool) (fs : dfields B) :
  fields_safe fs -> safe p -> safe q -> safe lp -> (nb = true -> safe lq /\ sane_any c) ->
  safe (field p (ber_of fs)) /\ safe (field q (der_of fs)) /\ safe (field lp (lber_of fs))
  /\ (nb && fno_bool fs = true -> safe (field lq (lder_of fs)) /\ Forall sane_any (c :: checks_of fs)).
Proof.
  intros (F1 & F2 & F3 & F4) P Q LP LQ. split; [apply field_safe; assumption|]. split; [apply field_safe; assumption|].
  split; [apply field_safe; assumption|]. intros E. apply andb_prop in E as [E1 E2]. destruct (LQ E1), (F4 E2).
  split; [apply field_safe; assumption|constructor; assumption].
Qed.

Lemma dty_all_steady : (forall A (t : dty A), dty_steady t) /\ (forall A (fs : dfields A), fields_safe fs)
  /\ (forall A (vs : dvariants A), variants_sane vs).
Proof.
  apply dty_mutind.
  - intros A t. split; [exact (types_steady t)|]. intros der H. exact (legacy_is_steady t der H).
  - intros A t [P L]. split.
    + exact (vec_parser_steady _ (proj1 P) (proj1 (proj2 P))).
    + intros der H. exact (vec_legacy_steady _ der (L der H)).
  - intros A set fs (F1 & F2 & F3 & F4). split; [exact (struct_parser_steady _ _ _ F1 F2)|]. intros der H.
    apply (struct_legacy_steady (struct_tag set) (lber_of fs) (lder_of fs) (checks_of fs)); [exact F3|]. intros E. exact (F4 (H E)).
  - intros A k vs V. destruct (V k) as [V1 V2]. split.
    + apply (default_parser_steady (accept_of k vs)); apply choice_content_sane; assumption.
    + intros der _. exact (no_legacy_is_steady der).
  - intros ds. split; [exact (denum_steady ds)|]. intros der _. exact (no_legacy_is_steady der).
  - intros A t [(P1 & P2 & _) L]. split.
    + apply (default_parser_steady (ps_accept (dparser_of t))); assumption.
    + intros der H. exact (alias_legacy_steady _ der (L der H)).
  - split; [exact no_field_safe|]. split; [exact no_field_safe|]. split; [exact no_field_safe|]. intros _. split; [exact no_field_safe|constructor].
  - intros A B t [P L] fs F. pose proof P as (P1 & P2 & P3 & P4).
    apply (field_fields_safe (ps_parse_ber (dparser_of t)) (ps_parse_der (dparser_of t)) (lg_from_ber (dlegacy_of t))
             (lg_from_der (dlegacy_of t)) (lg_check (dlegacy_of t)) (dno_bool t) fs F);
      [apply steady_safe, P3|apply steady_safe, P4|apply steady_safe, (L false); discriminate|].
    intros E. destruct (L true (fun _ => E)) as (_ & _ & C). destruct (C eq_refl). split; [apply steady_safe|]; assumption.
  - intros A B t [P L] fs F. pose proof P as (P1 & P2 & _). destruct (option_parser_safe _ P1 P2) as (_ & _ & O1 & O2).
    apply (field_fields_safe (ps_parse_ber (option_parser (dparser_of t))) (ps_parse_der (option_parser (dparser_of t)))
             (option_from_ber (ps_accept (dparser_of t)) (dlegacy_of t)) (option_from_der (ps_accept (dparser_of t)) (dlegacy_of t))
             (lg_check (dlegacy_of t)) (dno_bool t) fs F O1 O2).
    + apply option_from_safe, steady_safe, (L false). discriminate.
    + intros E. destruct (L true (fun _ => E)) as (_ & _ & C). destruct (C eq_refl).
      split; [apply option_from_safe, steady_safe|]; assumption.
  - intros A B d t [P L] fs F. pose proof P as (P1 & P2 & _). destruct (option_parser_safe _ P1 P2) as (_ & _ & O1 & O2).
    apply (field_fields_safe (with_default d (ps_parse_ber (option_parser (dparser_of t))))
             (with_default d (ps_parse_der (option_parser (dparser_of t))))
             (with_default d (option_from_ber (ps_accept (dparser_of t)) (dlegacy_of t)))
             (with_default d (option_from_der (ps_accept (dparser_of t)) (dlegacy_of t)))
             (lg_check (dlegacy_of t)) (dno_bool t) fs F (with_default_safe d _ O1) (with_default_safe d _ O2)).
    + apply with_default_safe, option_from_safe, steady_safe, (L false). discriminate.
    + intros E. destruct (L true (fun _ => E)) as (_ & _ & C). destruct (C eq_refl).
      split; [apply with_default_safe, option_from_safe, steady_safe|]; assumption.
  - intros A B g t [P L] fs F. destruct (tagged_parser_steady g _ P) as (_ & _ & P3 & P4).
    apply (field_fields_safe (ps_parse_ber (tagged_parser g (dparser_of t))) (ps_parse_der (tagged_parser g (dparser_of t)))
             (lg_from_ber (tagged_legacy g (dlegacy_of t))) (lg_from_der (tagged_legacy g (dlegacy_of t)))
             (lg_check (dlegacy_of t)) (dno_bool t) fs F (steady_safe _ P3) (steady_safe _ P4)).
    + apply steady_safe, (tagged_legacy_steady g _ false), L. discriminate.
    + intros E. destruct (tagged_legacy_steady g _ true (L true (fun _ => E))) as (_ & _ & C). destruct (C eq_refl) as [_ D].
      destruct (L true (fun _ => E)) as (_ & _ & C'). destruct (C' eq_refl) as [D' _]. split; [apply steady_safe, D|exact D'].
  - intros A B g t [P L] fs F. destruct (tagged_parser_steady g _ P) as (_ & _ & P3 & P4).
    pose proof (steady_safe _ header_ber_steady) as HB. pose proof (steady_safe _ header_der_steady) as HD.
    apply (field_fields_safe (fld_tagged_optional g (dparser_of t)) (fld_tagged_optional_der g (dparser_of t))
             (lfld_tagged_optional g (dlegacy_of t)) (lfld_tagged_optional_der g (dlegacy_of t))
             (lg_check (dlegacy_of t)) (dno_bool t) fs F
             (tagged_optional_safe _ _ _ HB (steady_safe _ P3)) (tagged_optional_safe _ _ _ HD (steady_safe _ P4))).
    + apply tagged_optional_safe; [exact HB|]. apply steady_safe, (tagged_legacy_steady g _ false), L. discriminate.
    + intros E. destruct (tagged_legacy_steady g _ true (L true (fun _ => E))) as (_ & _ & C). destruct (C eq_refl) as [_ D].
      destruct (L true (fun _ => E)) as (_ & _ & C'). destruct (C' eq_refl) as [D' _].
      split; [apply tagged_optional_safe; [exact HD|apply steady_safe, D]|exact D'].
  - intros A B g d t [P L] fs F. destruct (tagged_parser_steady g _ P) as (_ & _ & P3 & P4).
    pose proof (steady_safe _ header_ber_steady) as HB. pose proof (steady_safe _ header_der_steady) as HD.
    apply (field_fields_safe (with_default d (fld_tagged_optional g (dparser_of t))) (with_default d (fld_tagged_optional_der g (dparser_of t)))
             (with_default d (lfld_tagged_optional g (dlegacy_of t))) (with_default d (lfld_tagged_optional_der g (dlegacy_of t)))
             (lg_check (dlegacy_of t)) (dno_bool t) fs F
             (with_default_safe d _ (tagged_optional_safe _ _ _ HB (steady_safe _ P3)))
             (with_default_safe d _ (tagged_optional_safe _ _ _ HD (steady_safe _ P4)))).
    + apply with_default_safe, tagged_optional_safe; [exact HB|]. apply steady_safe, (tagged_legacy_steady g _ false), L. discriminate.
    + intros E. destruct (tagged_legacy_steady g _ true (L true (fun _ => E))) as (_ & _ & C). destruct (C eq_refl) as [_ D].
      destruct (L true (fun _ => E)) as (_ & _ & C'). destruct (C' eq_refl) as [D' _].
      split; [apply with_default_safe, tagged_optional_safe; [exact HD|apply steady_safe, D]|exact D'].
  - intros k. split; intros h d Hd; discriminate.
  - intros A B n t [(P1 & P2 & P3 & P4) L] vs V k. destruct (V k) as [V1 V2]. destruct k as [kd|].
    + split.
      * exact (tagged_variant_sane kd n _ _ _ (steady_safe _ P3) P1 V1).
      * exact (tagged_variant_sane kd n _ _ _ (steady_safe _ P4) P2 V2).
    + split; [exact (untagged_variant_sane _ _ _ P1 V1)|exact (untagged_variant_sane _ _ _ P2 V2)].
Qed.

(** ** C05, C06, C07, C72 for every type *)

(** Reading succeeds in the same way when more octets follow, and what is left over is the end of the input. *)
Definition stable {A} (p : bytes -> res (bytes * A)) : Prop :=
  forall i r v, bytes_ok i -> p i = Ok (r, v) ->
    (exists pre, pre <> [] /\ i = pre ++ r) /\ forall x, bytes_ok x -> p (i ++ x) = Ok (r ++ x, v).
(** [n] more octets are asked for, and fewer never give another answer. *)
Definition waits {A} (p : bytes -> res (bytes * A)) : Prop :=
  forall i n, bytes_ok i -> p i = Incomplete n ->
    1 <= n /\ forall x, bytes_ok x -> blen x < n -> exists m, n - blen x <= m /\ p (i ++ x) = Incomplete m.
(** Errors other than [InvalidTag] stay. *)
Definition final_errors {A} (p : bytes -> res (bytes * A)) : Prop :=
  forall i x e, bytes_ok i -> bytes_ok x -> e <> EInvalidTag -> p i = Err e -> p (i ++ x) = Err e.
Definition never_panics {A} (p : bytes -> res (bytes * A)) : Prop := forall i, bytes_ok i -> p i <> Panic.
(** The bounds put on the loops of the model are never reached. *)
Definition ends {A} (p : bytes -> res (bytes * A)) : Prop := forall i, bytes_ok i -> p i <> Err EFuel.

Lemma steady_stable {A} (p : bytes -> res (bytes * A)) : steady p -> stable p.
Proof.
  intros H i r v Hi E. specialize (H i Hi). rewrite E in H. destruct H as [(pre & Hp & Hne) H]. split; [eauto|exact H].
Qed.
Lemma steady_waits {A} (p : bytes -> res (bytes * A)) : steady p -> waits p.
Proof. intros H i n Hi E. specialize (H i Hi). rewrite E in H. exact H. Qed.
Lemma steady_final {A} (p : bytes -> res (bytes * A)) : steady p -> final_errors p.
Proof. intros H i x e Hi Hx He E. specialize (H i Hi). rewrite E in H. apply H; assumption. Qed.
Lemma steady_never {A} (p : bytes -> res (bytes * A)) : steady p -> never_panics p.
Proof. intros H i Hi E. specialize (H i Hi). rewrite E in H. exact H. Qed.
Lemma steady_ends {A} (p : bytes -> res (bytes * A)) : steady p -> ends p.
Proof. intros H i Hi E. specialize (H i Hi). rewrite E in H. destruct H. congruence. Qed.

Lemma dty_readers {A} (t : dty A) :
  steady (ps_parse_ber (dparser_of t)) /\ steady (ps_parse_der (dparser_of t)) /\ steady (lg_from_ber (dlegacy_of t))
  /\ (dno_bool t = true -> steady (lg_from_der (dlegacy_of t))).
Proof.
  destruct (proj1 dty_all_steady A t) as [(_ & _ & P3 & P4) L]. split; [exact P3|]. split; [exact P4|]. split.
  - apply (L false). discriminate.
  - intros E. destruct (L true (fun _ => E)) as (_ & _ & C). apply C. reflexivity.
Qed.

(** [DTy] makes these statements about the types of PTypes.v as well. *)
Theorem C05_types_stability {A} (t : dty A) :
  stable (ps_parse_ber (dparser_of t)) /\ stable (ps_parse_der (dparser_of t)) /\ stable (lg_from_ber (dlegacy_of t))
  /\ (dno_bool t = true -> stable (lg_from_der (dlegacy_of t))).
Proof.
  destruct (dty_readers t) as (A1 & A2 & A3 & A4). split; [apply steady_stable, A1|]. split; [apply steady_stable, A2|].
  split; [apply steady_stable, A3|]. intros E. apply steady_stable, A4, E.
Qed.
Print Assumptions C05_types_stability.
Example C05_types_case :
  let t := DStruct false (FPlain (DTy (TVec (TBase (BUint 4)))) (FOption (DTy (TBase BUtcTime)) FNil)) in
  ps_parse_ber (dparser_of t) [0x30; 0x80; 0x30; 3; 2; 1; 9; 0; 0] = Ok ([], ([9%Z], (None, tt)))
  /\ ps_parse_ber (dparser_of t) ([0x30; 0x80; 0x30; 3; 2; 1; 9; 0; 0] ++ [1; 2]) = Ok ([1; 2], ([9%Z], (None, tt))).
Proof. vm_compute. split; reflexivity. Qed.


Theorem C06_types_incomplete_partial {A} (t : dty A) :
  (waits (ps_parse_ber (dparser_of t)) /\ final_errors (ps_parse_ber (dparser_of t)))
  /\ (waits (ps_parse_der (dparser_of t)) /\ final_errors (ps_parse_der (dparser_of t)))
  /\ (waits (lg_from_ber (dlegacy_of t)) /\ final_errors (lg_from_ber (dlegacy_of t)))
  /\ (dno_bool t = true -> waits (lg_from_der (dlegacy_of t)) /\ final_errors (lg_from_der (dlegacy_of t))).
Proof.
  destruct (dty_readers t) as (A1 & A2 & A3 & A4).
  split; [split; [apply steady_waits|apply steady_final]; exact A1|].
  split; [split; [apply steady_waits|apply steady_final]; exact A2|].
  split; [split; [apply steady_waits|apply steady_final]; exact A3|].
  intros E. split; [apply steady_waits|apply steady_final]; apply A4, E.
Qed.
Print Assumptions C06_types_incomplete_partial.
Example C06_types_case :
  let t := DStruct false (FPlain (DTy (TVec (TBase (BUint 4)))) (FOption (DTy (TBase BUtcTime)) FNil)) in
  ps_parse_ber (dparser_of t) [0x30; 5; 0x30] = Incomplete 4
  /\ ps_parse_ber (dparser_of t) ([0x30; 5; 0x30] ++ [3; 2; 1]) = Incomplete 1
  /\ ps_parse_ber (dparser_of t) ([0x30; 5; 0x30] ++ [3; 2; 1; 7]) = Ok ([], ([7%Z], (None, tt)))
  /\ ps_parse_ber (dparser_of t) [0x31; 5; 0x30] = Err EUnexpectedTag.
Proof. vm_compute. repeat split; reflexivity. Qed.


Theorem C07_types_no_panic_partial {A} (t : dty A) :
  never_panics (ps_parse_ber (dparser_of t)) /\ never_panics (ps_parse_der (dparser_of t))
  /\ never_panics (lg_from_ber (dlegacy_of t))
  /\ (dno_bool t = true -> never_panics (lg_from_der (dlegacy_of t))).
Proof.
  destruct (dty_readers t) as (A1 & A2 & A3 & A4). split; [apply steady_never, A1|]. split; [apply steady_never, A2|].
  split; [apply steady_never, A3|]. intros E. apply steady_never, A4, E.
Qed.
Print Assumptions C07_types_no_panic_partial.

Theorem C72_reading_ends {A} (t : dty A) :
  ends (ps_parse_ber (dparser_of t)) /\ ends (ps_parse_der (dparser_of t)) /\ ends (lg_from_ber (dlegacy_of t))
  /\ (dno_bool t = true -> ends (lg_from_der (dlegacy_of t))).
Proof.
  destruct (dty_readers t) as (A1 & A2 & A3 & A4). split; [apply steady_ends, A1|]. split; [apply steady_ends, A2|].
  split; [apply steady_ends, A3|]. intros E. apply steady_ends, A4, E.
Qed.
Print Assumptions C72_reading_ends.
Example C72_case :
  let t := TVec (TVec (TBase BNull)) in
  ps_parse_ber (parser_of t) [0x30; 0x80; 0x30; 0x80; 5; 0; 0; 0; 0x30; 0; 0; 0] = Ok ([], [[tt]; []])
  /\ ps_parse_ber (parser_of t) [0x30; 4; 0x30; 0x80; 0x30; 0x80] = Err (EIncomplete 1).
Proof. vm_compute. repeat split; reflexivity. Qed.


(** Nested types, texts and times: contents that are cut short, malformed or too deep. *)
Example C07_types_case :
  let t := DStruct false (FPlain (DTy (TVec (TExplicit ContextSpecific 1 (TBase BBits)))) (FOption (DTy (TBase BUtcTime)) FNil)) in
  dno_bool t = true
  /\ ps_parse_ber (dparser_of t) [0x30; 0x80; 0x30; 7; 0xa1; 5; 0x23; 3; 3; 1; 9; 0; 0] = Err EInvalidValue
  /\ ps_parse_der (dparser_of t) [0x30; 2; 0x30; 5] = Incomplete 5
  /\ lg_from_der (dlegacy_of t) [0x30; 4; 0x30; 2; 0xa1; 0] = Err (EIncomplete 1).
Proof. vm_compute. repeat split. Qed.

(** ** The readers that are not types of PDerive.v *)

Lemma any_content_sane : sane_content any_ber_content /\ sane_content any_der_content.
Proof.
  split; intros h d Hd; [unfold any_ber_content|unfold any_der_content]; sane_tac; try apply take_sane. apply der_get_content_sane.
Qed.
Lemma any_items_steady tag : steady_parser (any_items_parser tag).
Proof.
  assert (O : sane_any (fun a : any => Ok a)) by (intros a _; exact I).
  apply default_parser_steady; intros h d Hd; unfold any_items_content, try_collect; sane_tac;
    apply collect_sane; auto using any_parse_ber_sane, any_parse_der_sane, any_ber_next, any_der_next with arith.
Qed.
Lemma eoc_steady : steady (parse_ber eoc_codec) /\ steady (from_ber eoc_codec).
Proof.
  assert (C : sane_content eoc_content) by (intros h d _; unfold eoc_content; sane_tac).
  split; [apply codec_parse_ber_steady, C|]. apply (blanket_steady (try_from_any eoc_codec)), default_try_from_sane, C.
Qed.
Lemma tagged0_safe {T} n (p : codec T) : sane_content (ber_content p) -> safe (tagged0 n p).
Proof.
  intros H. apply steady_safe. apply (codec_parse_ber_steady (mk_codec (is_tag n) (implicit_content ContextSpecific (ber_content p))
    (implicit_content ContextSpecific (ber_content p)) (fun _ => Err EUnsupported) (fun _ => Ok tt))).
  intros h d Hd. cbn [ber_content]. unfold implicit_content. sane_tac. apply H, Hd.
Qed.
Lemma take_bytes n i r d : bytes_ok i -> take n i = Ok (r, d) -> bytes_ok d.
Proof. intros Hi E. apply take_ok in E as [-> _]. apply bytes_ok_app in Hi. tauto. Qed.
Lemma tagged0_any_data i r a : bytes_ok i -> tagged0 0 any_codec i = Ok (r, a) -> bytes_ok (any_data a).
Proof.
  intros Hi E. unfold tagged0 in E. cbn [implicit_parser default_parser codec_parser ps_parse_ber] in E. unfold parse_ber in E.
  apply bind_ok in E as ([r0 h] & E1 & E). destruct (parse_header_consumes _ _ _ Hi E1) as (pre & -> & _).
  apply bytes_ok_app in Hi as [_ Hr]. cbn [accept_tag] in E. destruct (is_tag 0 (h_tag h)); [|discriminate].
  apply bind_ok in E as ([r1 d] & E2 & E). apply bind_ok in E as ([r2 x] & E3 & E). injection E as <- <-.
  pose proof (ber_object_content_data _ _ _ _ _ Hr E2) as Hd. cbn [ber_content codec_parser ps_ber_content] in E3.
  unfold implicit_content in E3. apply bind_ok in E3 as ([] & _ & E3). cbn [any_codec ber_content] in E3. unfold any_ber_content in E3.
  apply bind_ok in E3 as ([r3 d3] & E4 & E3). injection E3 as <- <-. cbn [any_data].
  destruct (h_length h); exact (take_bytes _ _ _ _ Hd E4).
Qed.
Lemma pdv_identify_sane a : bytes_ok (any_data a) -> sane (pdv_identify a).
Proof.
  intros Ha. pose proof (tagged0_safe 0 oid_codec oid_content_sane) as T0. pose proof (tagged0_safe 1 oid_codec oid_content_sane) as T1.
  pose proof (tagged0_safe 0 integer_codec integer_content_sane) as T2.
  unfold pdv_identify. cbv zeta. destruct (_ =? 0).
  { apply sane_bind; [apply T0, Ha|]. intros [rem x] E. apply sane_bind; [|intros [? ?] _; exact I].
    apply T1. exact (safe_rest _ _ _ _ T0 Ha E). }
  sane_tac; try apply oid_content_sane, Ha; try apply integer_content_sane, Ha; [apply T2, Ha|].
  apply T1. subst. eapply (safe_rest _ _ _ _ T2 Ha); eassumption.
Qed.
Lemma pdv_content_sane : sane_content pdv_ber_content.
Proof.
  intros h d Hd. unfold pdv_ber_content. pose proof (tagged0_safe 0 any_codec (proj1 any_content_sane)) as T0.
  apply sane_bind; [apply T0, Hd|]. intros [rem a] E. apply sane_bind; [apply pdv_identify_sane; exact (tagged0_any_data _ _ _ Hd E)|].
  intros ident _. pose proof (safe_rest _ _ _ _ T0 Hd E) as Hr.
  destruct (implicit_parser_steady ContextSpecific 1 (codec_parser (string_codec ObjDescriptor)) (string_content_sane ObjDescriptor)
              (base_der_sane (BString ObjDescriptor))) as (A & B & _).
  destruct (option_parser_safe _ A B) as (_ & _ & T1 & _).
  apply sane_bind; [apply T1, Hr|]. intros [rem2 o] E2. apply sane_bind; [|intros [? ?] _; exact I].
  apply (tagged0_safe 2 slice_codec slice_content_sane). exact (safe_rest _ _ _ _ T1 Hr E2).
Qed.
Lemma pdv_check_sane : sane_any pdv_check.
Proof. intros a _. unfold pdv_check. sane_tac. Qed.
Lemma oid_relative_steady : steady oid_from_ber_relative /\ steady oid_from_der_relative.
Proof.
  split.
  - apply (steady_ext _ (blanket_from_ber (fun a => let* _ := assert_primitive (any_header a) in
      let* _ := assert_tag (any_header a) TagRelativeOid in Ok (mk_oid (any_data a) true)))).
    + intros i _. unfold oid_from_ber_relative, blanket_from_ber. destruct (parse_ber_any i) as [[r a]|e|n|]; cbn [bind]; try reflexivity.
      destruct (assert_primitive (any_header a)); cbn [bind]; try reflexivity. destruct (assert_tag _ _); reflexivity.
    + apply blanket_steady. intros a _. sane_tac.
  - apply (der_steady _ (fun a => let* _ := assert_tag (any_header a) TagRelativeOid in let* _ := oid_check a in Ok (mk_oid (any_data a) true))).
    + intros i. unfold oid_from_der_relative. destruct (from_der any_codec i) as [[r a]|e|n|]; cbn [bind]; try reflexivity.
      destruct (assert_tag _ _); cbn [bind]; try reflexivity. destruct (oid_check a); reflexivity.
    + intros a _. unfold oid_check. sane_tac.
Qed.

(** A reader without panic and endless loop that is stable and truthful. *)
Definition well_behaved {A} (p : bytes -> res (bytes * A)) : Prop :=
  stable p /\ waits p /\ final_errors p /\ never_panics p /\ ends p.
Lemma steady_well {A} (p : bytes -> res (bytes * A)) : steady p -> well_behaved p.
Proof.
  intros H. split; [apply steady_stable, H|]. split; [apply steady_waits, H|]. split; [apply steady_final, H|].
  split; [apply steady_never, H|apply steady_ends, H].
Qed.
Lemma safe_never {A} (p : bytes -> res (bytes * A)) : safe p -> never_panics p /\ ends p.
Proof.
  intros H. split; intros i Hi E; destruct (H i Hi) as [S _]; rewrite E in S; cbn [sane] in S; [exact S|congruence].
Qed.

(** EMBEDDED PDV, [AnySequence]/[AnySet], end-of-contents, relative OIDs, [Boolean], tuples of any types, and
    [TaggedParser] in its four forms. *)
Theorem C07_more_readers :
  (well_behaved (parse_ber pdv_codec) /\ well_behaved (parse_der pdv_codec) /\ well_behaved (from_ber pdv_codec)
   /\ well_behaved (from_der pdv_codec))
  /\ (forall tag, well_behaved (ps_parse_ber (any_items_parser tag)) /\ well_behaved (ps_parse_der (any_items_parser tag)))
  /\ (well_behaved (parse_ber eoc_codec) /\ well_behaved (from_ber eoc_codec))
  /\ (well_behaved oid_from_ber_relative /\ well_behaved oid_from_der_relative)
  /\ (well_behaved (parse_ber boolean_codec) /\ well_behaved (parse_der boolean_codec) /\ well_behaved (from_ber boolean_codec))
  /\ (forall A (fs : dfields A), well_behaved (ps_parse_ber (tuple_parser (ber_of fs) (der_of fs)))
                               /\ well_behaved (ps_parse_der (tuple_parser (ber_of fs) (der_of fs))))
  /\ (forall A (t : dty A) c n,
        well_behaved (tp_parse (tp_explicit_from_ber (dlegacy_of t)) c n) /\ well_behaved (tp_parse (tp_implicit_from_ber (dlegacy_of t)) c n)
        /\ (dno_bool t = true -> well_behaved (tp_parse (tp_explicit_from_der (dlegacy_of t)) c n)
                               /\ well_behaved (tp_parse (tp_implicit_from_der (dlegacy_of t)) c n)
                               /\ well_behaved (parse_der_tagged (tp_explicit_from_der (dlegacy_of t)) n)
                               /\ well_behaved (parse_der_tagged (tp_implicit_from_der (dlegacy_of t)) n))).
Proof.
  pose proof pdv_content_sane as PC. pose proof boolean_content_sane as BC.
  assert (PT : sane_any (try_from_any pdv_codec)) by (apply default_try_from_sane, PC).
  split; [|split; [|split; [|split; [|split; [|split]]]]].
  - split; [apply steady_well, codec_parse_ber_steady, PC|]. split; [apply steady_well, codec_parse_der_steady, PC|].
    split; [apply steady_well, (blanket_steady (try_from_any pdv_codec)), PT|]. apply steady_well, from_der_steady; [apply pdv_check_sane|exact PT].
  - intros tag. destruct (any_items_steady tag) as (_ & _ & A & B). split; apply steady_well; assumption.
  - destruct eoc_steady. split; apply steady_well; assumption.
  - destruct oid_relative_steady. split; apply steady_well; assumption.
  - split; [apply steady_well, codec_parse_ber_steady, BC|]. split; [apply steady_well, codec_parse_der_steady, boolean_der_sane|].
    apply steady_well, (blanket_steady (try_from_any boolean_codec)), default_try_from_sane, BC.
  - intros A fs. destruct (proj1 (proj2 dty_all_steady) A fs) as (F1 & F2 & _). destruct (tuple_parser_steady _ _ F1 F2) as (_ & _ & B & D).
    split; apply steady_well; assumption.
  - intros A t c n. destruct (proj1 dty_all_steady A t) as [_ L]. destruct (L false ltac:(discriminate)) as (L1 & L2 & _).
    split; [apply steady_well, tp_parse_steady, tp_explicit_ber_steady, L2|].
    split; [apply steady_well, tp_parse_steady, tp_implicit_ber_steady, L1|]. intros E.
    destruct (L true (fun _ => E)) as (_ & _ & C). destruct (C eq_refl) as [C1 C2].
    pose proof (tp_explicit_der_steady _ C2) as X. pose proof (tp_implicit_der_steady _ C1 L1) as Y.
    split; [apply steady_well, tp_parse_steady, X|]. split; [apply steady_well, tp_parse_steady, Y|].
    split; apply steady_well, parse_der_tagged_steady; assumption.
Qed.
Print Assumptions C07_more_readers.

(** [Option] and [OptTaggedParser]: at the end of the input the answer is [None], so only the absence of panics
    and endless loops is claimed. *)
Theorem C07_optional_readers {A} (t : dty A) :
  (never_panics (ps_parse_ber (option_parser (dparser_of t))) /\ ends (ps_parse_ber (option_parser (dparser_of t))))
  /\ (never_panics (ps_parse_der (option_parser (dparser_of t))) /\ ends (ps_parse_der (option_parser (dparser_of t))))
  /\ (forall accept, never_panics (option_from_ber accept (dlegacy_of t)) /\ ends (option_from_ber accept (dlegacy_of t)))
  /\ (dno_bool t = true ->
      forall accept, never_panics (option_from_der accept (dlegacy_of t)) /\ ends (option_from_der accept (dlegacy_of t)))
  /\ (forall c n, let f := fun h d => ps_ber_content (dparser_of t) h d in
        never_panics (opt_tagged_parse parse_ber_any c n f) /\ ends (opt_tagged_parse parse_ber_any c n f)
        /\ never_panics (opt_tagged_parse parse_der_any c n f) /\ ends (opt_tagged_parse parse_der_any c n f)).
Proof.
  destruct (proj1 dty_all_steady A t) as [(P1 & P2 & _) _]. destruct (dty_readers t) as (_ & _ & A3 & A4).
  destruct (option_parser_safe _ P1 P2) as (_ & _ & O1 & O2).
  split; [apply safe_never, O1|]. split; [apply safe_never, O2|].
  split; [intros accept; apply safe_never, option_from_safe, steady_safe, A3|].
  split; [intros E accept; apply safe_never, option_from_safe, steady_safe, A4, E|]. intros c n f.
  assert (G : forall p, steady p -> (forall i r a, bytes_ok i -> p i = Ok (r, a) -> bytes_ok (any_data a)) ->
     never_panics (opt_tagged_parse p c n f) /\ ends (opt_tagged_parse p c n f)).
  { intros p Hp Hd. assert (S : forall i, bytes_ok i -> sane (opt_tagged_parse p c n f i)).
    { intros i Hi. unfold opt_tagged_parse. destruct (blen i =? 0); [exact I|].
      apply sane_bind; [apply (steady_safe _ Hp), Hi|]. intros [rem a] E. sane_tac. apply P1, (Hd _ _ _ Hi E). }
    split; intros i Hi E; specialize (S i Hi); rewrite E in S; cbn [sane] in S; [exact S|congruence]. }
  destruct (G parse_ber_any ber_any_steady parse_ber_any_data), (G parse_der_any der_any_steady parse_der_any_data).
  repeat split; assumption.
Qed.
Print Assumptions C07_optional_readers.
Example C07_more_case :
  ps_parse_ber (any_items_parser TagSequence) [0x30; 3; 2; 5; 1] = Err (EIncomplete 4)
  /\ from_ber pdv_codec [0x2b; 4; 0xa0; 2; 0x80; 0] = Err EInvalidLength.
Proof. vm_compute. repeat split; reflexivity. Qed.
