(** C61: when [Any::as_optional] says that an object is absent. *)
From Verif Require Import Base MHeader MEncode MBer MInt MSeg MOid MText MTime MReal MCont PTypes.

(** Exactly: another tag, or the contents refused for a tag; every other failure is an error. *)
Theorem C61_exact {T} accept (content : header -> bytes -> res (bytes * T)) (a : any) :
  let r := as_optional (default_try_from accept content) a in
  let there := accept (h_tag (any_header a)) = true in
  let got := content (any_header a) (any_data a) in
  (r = Ok None <-> accept (h_tag (any_header a)) = false \/ got = Err EUnexpectedTag)
  /\ (forall x, r = Ok (Some x) <-> there /\ exists rem, got = Ok (rem, x))
  /\ (forall e, r = Err e <-> there /\ e <> EUnexpectedTag /\ (got = Err e \/ exists n, got = Incomplete n /\ e = EIncomplete n))
  /\ (r = Panic <-> there /\ got = Panic).
Proof.
  cbv zeta. unfold as_optional, default_try_from. destruct (accept (h_tag (any_header a))); cbn [bind].
  2:{ split; [tauto|]. split; [intros x; split; [discriminate | intros [E _]; discriminate]|].
      split; [intros e; split; [discriminate | intros [E _]; discriminate]|]. split; [discriminate | intros [E _]; discriminate]. }
  destruct (content (any_header a) (any_data a)) as [[rem y]|e|n|]; cbn [close bind].
  - split; [split; [discriminate | intros [E|E]; discriminate]|].
    split; [intros x; split; [intros E; injection E as <-; eauto | intros [_ (r & E)]; injection E as _ <-; reflexivity]|].
    split; [intros e; split; [discriminate | intros (_ & _ & [E|(n & E & _)]); discriminate]|]. split; [discriminate | intros [_ E]; discriminate].
  - assert (D : e = EUnexpectedTag \/ e <> EUnexpectedTag) by (destruct e; auto; right; discriminate). destruct D as [-> | D].
    + split; [tauto|]. split; [intros x; split; [discriminate | intros [_ (r & E)]; discriminate]|].
      split; [intros e; split; [discriminate | intros (_ & N & [E|(n & E & _)]); [injection E as <-; congruence | discriminate]]|].
      split; [discriminate | intros [_ E]; discriminate].
    + replace (match e with EUnexpectedTag => Ok None | _ => Err e end) with (Err e : res (option T)) by (destruct e; congruence).
      split; [split; [discriminate | intros [E|E]; [discriminate | congruence]]|].
      split; [intros x; split; [discriminate | intros [_ (r & E)]; discriminate]|].
      split; [intros e'; split; [intros E; injection E as <-; auto | intros (_ & _ & [E|(n & E & _)]); [congruence | discriminate]]|].
      split; [discriminate | intros [_ E]; discriminate].
  - split; [split; [discriminate | intros [E|E]; discriminate]|]. split; [intros x; split; [discriminate | intros [_ (r & E)]; discriminate]|].
    split; [intros e'; split; [intros E; injection E as <-; split; [reflexivity | split; [discriminate | eauto]]
                              | intros (_ & _ & [E|(m & E & ->)]); [discriminate | congruence]]|].
    split; [discriminate | intros [_ E]; discriminate].
  - split; [split; [discriminate | intros [E|E]; discriminate]|]. split; [intros x; split; [discriminate | intros [_ (r & E)]; discriminate]|].
    split; [intros e'; split; [discriminate | intros (_ & _ & [E|(m & E & _)]); discriminate]|]. tauto.
Qed.
Print Assumptions C61_exact.

(** ** The base types never refuse their contents for a tag *)

Definition plain {A} (r : res A) : Prop := match r with Err EUnexpectedTag => False | _ => True end.
Lemma plain_bind {A B} (r : res A) (f : A -> res B) : plain r -> (forall a, plain (f a)) -> plain (bind r f).
Proof. intros H F. destruct r as [a|[]| |]; cbn in *; auto. Qed.
Lemma plain_close {A} (r : res A) : plain r -> plain (close r).
Proof. destruct r as [a|[]| |]; auto. Qed.
Lemma plain_take n i : plain (take n i).
Proof. unfold take. destruct (_ <=? _); exact I. Qed.
Lemma plain_u8 i : plain (be_u8 i).
Proof. destruct i; exact I. Qed.

Ltac plain_step :=
  match goal with
  | |- plain (bind _ _) => apply plain_bind; [|intros ?]
  | |- plain (Ok _) => exact I
  | |- plain (Err _) => exact I
  | |- plain (Incomplete _) => exact I
  | |- plain Panic => exact I
  | |- plain (close _) => apply plain_close
  | |- plain (take _ _) => apply plain_take
  | |- plain (be_u8 _) => apply plain_u8
  | |- plain (if ?b then _ else _) => destruct b
  | |- plain (let _ := _ in _) => cbv zeta
  | |- plain (match ?x with (_, _) => _ end) => destruct x
  | |- plain (match ?x with [] => _ | _ :: _ => _ end) => destruct x
  | |- plain (match ?x with Some _ => _ | None => _ end) => destruct x
  | |- plain (match ?x with Definite _ => _ | Indefinite => _ end) => destruct x
  | |- plain (assert_primitive _) => unfold assert_primitive
  | |- plain (assert_constructed _) => unfold assert_constructed
  | |- plain (length_assert_definite _) => unfold length_assert_definite
  end.
Ltac plain_tac := repeat plain_step.

Lemma tag_loop_plain : forall r c n, plain (tag_loop r c n).
Proof. induction r as [|b r IH]; intros c n; cbn [tag_loop]; plain_tac. apply IH. Qed.
Lemma parse_length_plain k r : plain (parse_length k r).
Proof. unfold parse_length. plain_tac. Qed.
Lemma header_plain i : plain (header_parse_ber i).
Proof. unfold header_parse_ber, parse_header. plain_tac; first [apply tag_loop_plain | apply parse_length_plain]. Qed.
Lemma skip_plain : forall d h i, plain (skip_content d h i).
Proof.
  induction d as [|d IH]; intros h i; cbn [skip_content]; plain_tac. generalize (S (length i)). intros f. revert i.
  induction f as [|f IHf]; intros i; cbn [skip_loop]; plain_tac; [apply header_plain | apply IH | apply IHf].
Qed.
Lemma content_plain h i d : plain (ber_object_content h i d).
Proof. unfold ber_object_content. plain_tac. apply skip_plain. Qed.
Lemma any_plain i : plain (any_parse_ber i).
Proof.
  unfold any_parse_ber, parse_ber. cbn [accept_tag any_codec ber_content]. unfold any_ber_content. plain_tac; [apply header_plain | apply content_plain].
Qed.

Lemma seg_loop_plain {T} accept (append : T -> T -> T) seg : (forall h d, plain (seg h d)) -> forall n d v, plain (seg_loop accept append seg n d v).
Proof. intros H. induction n as [|n IH]; intros d v; [exact I|]. cbn [seg_loop]. plain_tac; try apply IH; try apply H. apply any_plain. Qed.
Lemma segmented_plain {T} accept (dflt : T) append prim n : (forall h d, plain (prim h d)) -> forall h i, plain (parse_ber_segmented accept dflt append prim n h i).
Proof.
  intros H. induction n as [|n IH]; intros h i; [exact I|]. cbn [parse_ber_segmented]. unfold ber_get_content.
  plain_tac; try apply content_plain; try apply H; apply seg_loop_plain; exact IH.
Qed.
Lemma octet_segmented_plain h d : plain (octet_segmented h d).
Proof. apply segmented_plain. intros ? ?. exact I. Qed.
Lemma int_input_plain d : plain (check_der_int_input d).
Proof. destruct d as [|a [|b d]]; [exact I|exact I|]. cbn [check_der_int_input]. plain_tac. Qed.
Lemma int_plain w h d : plain (int_ber_content w h d).
Proof. unfold int_ber_content, decode_array_int, decode_array_uint. plain_tac. Qed.
Lemma uint_plain w h d : plain (uint_ber_content w h d).
Proof. unfold uint_ber_content, decode_array_uint. plain_tac. Qed.
Lemma integer_plain h d : plain (integer_ber_content h d).
Proof. unfold integer_ber_content, der_get_content. plain_tac. Qed.
Lemma boolean_plain h d : plain (boolean_ber_content h d).
Proof. unfold boolean_ber_content. plain_tac. Qed.
Lemma bitstring_prim_plain h d : plain (bitstring_prim h d).
Proof. unfold bitstring_prim, ber_get_content. plain_tac. apply content_plain. Qed.
Lemma bitstring_plain h d : plain (bitstring_ber_content h d).
Proof. unfold bitstring_ber_content. plain_tac; [apply bitstring_prim_plain | apply segmented_plain; exact bitstring_prim_plain]. Qed.
Lemma octet_plain h d : plain (octet_ber_content h d).
Proof. unfold octet_ber_content, octet_prim. plain_tac. apply octet_segmented_plain. Qed.
Lemma charset_plain k i : plain (test_valid_charset k i).
Proof. unfold test_valid_charset. destruct k; cbv zeta; plain_tac. Qed.
Lemma string_plain k h d : plain (string_ber_content k h d).
Proof. unfold string_ber_content. plain_tac; [apply octet_segmented_plain|apply charset_plain]. Qed.
Lemma wide_plain h d : plain (wide_data h d).
Proof. unfold wide_data. plain_tac. apply octet_segmented_plain. Qed.
Lemma decimal_plain a b : plain (decode_decimal a b).
Proof. unfold decode_decimal. plain_tac. Qed.
Lemma seconds_plain r : plain (time_seconds r).
Proof. unfold time_seconds. destruct r as [|a [|b r]]; [exact I|exact I|]. plain_tac. apply decimal_plain. Qed.
Lemma zone_plain r : plain (time_zone r).
Proof. unfold time_zone. destruct r as [|a [|b [|c [|d [|e [|f r]]]]]]; plain_tac; apply decimal_plain. Qed.
Lemma utc_plain i : plain (utc_from_bytes i).
Proof. unfold utc_from_bytes. plain_tac; first [apply decimal_plain|apply seconds_plain|apply zone_plain]. Qed.
Lemma frac_plain i : forall n f, plain (frac_loop n f i).
Proof. induction i as [|b i IH]; intros n f; cbn [frac_loop]; plain_tac. apply IH. Qed.
Lemma fraction_plain r : plain (time_fraction r).
Proof. unfold time_fraction. plain_tac. apply frac_plain. Qed.
Lemma gen_plain i : plain (gen_from_bytes i).
Proof. unfold gen_from_bytes. cbv zeta. plain_tac; first [apply decimal_plain|apply seconds_plain|apply fraction_plain|apply zone_plain]. Qed.

Ltac base_plain :=
  intros h d; cbn [base_codec ber_content der_content bool_codec null_codec string_codec int_codec uint_codec enum_codec integer_codec
    octet_codec slice_codec bitstring_codec oid_codec str_codec ostring_codec bmp_codec universal_codec raw_codec utc_codec gen_codec];
  unfold map_snd, enum_ber_content, enum_der_content, int_der_content, uint_der_content, integer_der_content, octet_der_content,
    bitstring_der_content, oid_der_content, oid_ber_content, string_der_content, str_ber_content, str_der_content, null_ber_content,
    boolean_der_content, slice_ber_content, bmp_ber_content, universal_ber_content, raw_content, utc_ber_content, utc_der_content,
    gen_ber_content, gen_der_content, gen_der_text; plain_tac;
  first [apply int_plain|apply uint_plain|apply int_input_plain|apply integer_plain|apply boolean_plain|apply octet_plain
        |apply bitstring_plain|apply string_plain|apply wide_plain|apply utc_plain|apply gen_plain].
Lemma base_ber_plain {A} (b : base A) : forall h d, plain (ber_content (base_codec b) h d).
Proof. destruct b; base_plain. Qed.
Lemma base_der_plain {A} (b : base A) : forall h d, plain (der_content (base_codec b) h d).
Proof. destruct b; base_plain. Qed.

(** Of the base types [None] means another tag, whatever the contents. *)
Theorem C61_base {A} (b : base A) (a : any) :
  let r := as_optional (try_from_any (base_codec b)) a in
  (r = Ok None <-> accept_tag (base_codec b) (h_tag (any_header a)) = false)
  /\ (forall x, r = Ok (Some x) <-> try_from_any (base_codec b) a = Ok x).
Proof.
  cbv zeta. assert (X : accept_tag (base_codec b) (h_tag (any_header a)) = false /\ try_from_any (base_codec b) a = Err EUnexpectedTag
                        \/ accept_tag (base_codec b) (h_tag (any_header a)) = true /\ plain (try_from_any (base_codec b) a)).
  { assert (D : forall T ac (f : header -> bytes -> res (bytes * T)), (forall h d, plain (f h d)) ->
                ac (h_tag (any_header a)) = false /\ default_try_from ac f a = Err EUnexpectedTag
                \/ ac (h_tag (any_header a)) = true /\ plain (default_try_from ac f a)).
    { intros T ac f F. unfold default_try_from. destruct (ac (h_tag (any_header a))); [right | left; auto]. split; [reflexivity|]. plain_tac. apply F. }
    assert (R : forall tag, is_tag tag (h_tag (any_header a)) = false /\ raw_try_from tag a = Err EUnexpectedTag
                \/ is_tag tag (h_tag (any_header a)) = true /\ plain (raw_try_from tag a)).
    { intros tag. unfold raw_try_from, assert_tag, is_tag. destruct (_ =? tag); cbn [bind]; [right | left; auto]. split; [reflexivity|]. plain_tac. }
    pose proof (base_ber_plain b) as PB. pose proof (base_der_plain b) as PD.
    destruct b; try exact (R _); apply D; first [exact PB | exact PD]. }
  unfold as_optional. destruct X as [[-> ->] | [-> P]].
  - split; [tauto|]. intros x. split; discriminate.
  - destruct (try_from_any (base_codec b) a) as [y|e| |]; cbn in P.
    + split; [split; discriminate|]. intros x. split; intros E; congruence.
    + destruct e; try contradiction; (split; [split; discriminate|]); intros x; split; discriminate.
    + split; [split; discriminate|]. intros x. split; discriminate.
    + split; [split; discriminate|]. intros x. split; discriminate.
Qed.
Print Assumptions C61_base.

(** A UTCTime is absent where an INTEGER is; one of 2 octets is an error; a refusal of an inner object makes the outer absent. *)
Example C61_exact_case :
  as_optional (try_from_any (base_codec BUtcTime)) (mk_any (header_new Universal false 2 (Definite 1)) [5]) = Ok None
  /\ as_optional (try_from_any (base_codec BUtcTime)) (mk_any (header_new Universal false 23 (Definite 2)) [48; 49]) = Err EInvalidValue
  /\ as_optional (default_try_from (is_tag 3) (explicit_content ContextSpecific 3 (parse_ber (base_codec BBool))))
       (mk_any (header_new ContextSpecific true 3 (Definite 2)) [5; 0]) = Ok None.
Proof. repeat split; vm_compute; reflexivity. Qed.
