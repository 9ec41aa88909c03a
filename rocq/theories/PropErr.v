(** C88: the errors of the integer types. *)
From Verif Require Import Base MHeader MEncode MBer MInt SHeader SBer SInt PArith PHeader PBer PCodec PInt PropTag PropCont.

(** The four readers of a type and the conversion of an [Integer], each with its [IntegerTooLarge] and other
    errors, on an object of tag number 2. *)
Definition reads (rd : bytes -> res (bytes * Z)) (d : bytes) (r : res Z) : Prop :=
  forall i c rem, bytes_ok i -> starts_with_object c false TagInteger d i rem -> rd i = let* v := r in Ok (rem, v).

Definition ber_says (p : codec Z) (d : bytes) (r : res Z) : Prop :=
  reads (parse_ber p) d r /\ reads (from_ber p) d r /\ integer_as p d = r.
Definition der_says (p : codec Z) (d : bytes) (r : res Z) : Prop :=
  reads (parse_der p) d r /\ reads (from_der p) d r.

(** The two types differ only in their contents. *)
Definition int_like (p : codec Z) (content : header -> bytes -> res (bytes * Z)) : Prop :=
  p = mk_codec (is_tag TagInteger) content (fun h i => let* _ := check_der_int_input i in content h i)
        (default_try_from (is_tag TagInteger) content) check_der_int.

Lemma object_content_at c k t d idb lenb rem :
  ber_object_content (hdr c k t (Definite (blen d)) idb lenb) (d ++ rem) MAX_RECURSION = Ok (rem, d).
Proof. change MAX_RECURSION with 50%nat. rewrite (definite_content _ _ (blen d)) by reflexivity. apply take_app. reflexivity. Qed.

Lemma ber_says_intro p content d r : int_like p content -> bytes_ok d -> close r = r ->
  (forall h, h_constructed h = false -> content h d = let* v := r in Ok ([], v)) -> ber_says p d r.
Proof.
  intros -> Hd Hr H. split; [|split].
  - intros i c rem Hi (t & idb & lenb & HR & Ht & ->). unfold parse_ber. rewrite (parse_header_at c false t) with (l := Definite (blen d)).
    + cbn [bind accept_tag h_tag hdr]. rewrite Ht. unfold is_tag. rewrite N.eqb_refl.
      rewrite object_content_at. cbn [bind ber_content].
      rewrite H by reflexivity. destruct r; reflexivity.
    + rewrite !bytes_ok_app in *. tauto.
    + exact HR.
  - intros i c rem Hi (t & idb & lenb & HR & Ht & ->). unfold from_ber. rewrite (parse_ber_any_at c false t) with (l := Definite (blen d)).
    + rewrite object_content_at. cbn [bind try_from_any].
      unfold default_try_from. cbn [any_header h_tag hdr any_data]. rewrite Ht. unfold is_tag. rewrite N.eqb_refl.
      rewrite H by reflexivity. destruct r; try reflexivity. discriminate.
    + rewrite !bytes_ok_app in *. tauto.
    + exact HR.
  - unfold integer_as, any_from_tag_and_data. cbn [try_from_any]. unfold default_try_from. cbn [any_header h_tag any_data].
    change (is_tag TagInteger TagInteger) with true. cbv iota. rewrite H by reflexivity. destruct r; try reflexivity. discriminate.
Qed.

Lemma der_says_intro p content d r : int_like p content -> bytes_ok d -> close r = r ->
  (forall h, h_constructed h = false -> (let* _ := check_der_int_input d in content h d) = let* v := r in Ok ([], v)) -> der_says p d r.
Proof.
  intros -> Hd Hr H. split.
  - intros i c rem Hi (t & idb & lenb & HR & Ht & ->). unfold parse_der.
    rewrite (parse_der_header_at c false t) with (l := Definite (blen d)).
    + cbn [is_definite bind accept_tag h_tag h_length hdr]. rewrite Ht. unfold is_tag. rewrite N.eqb_refl.
      rewrite take_app by reflexivity. cbn [bind der_content].
      rewrite H by reflexivity. destruct r; reflexivity.
    + rewrite !bytes_ok_app in *. tauto.
    + exact HR.
  - intros i c rem Hi (t & idb & lenb & HR & Ht & ->). unfold from_der. rewrite (parse_der_any_at c false t) with (l := Definite (blen d)).
    + rewrite take_app by reflexivity. cbn [bind try_from_any check_constraints].
      unfold check_der_int, default_try_from. cbn [any_header any_data]. set (h := hdr c false t (Definite (blen d)) idb lenb) in *.
      change (h_tag h) with (t mod 2 ^ 32). rewrite Ht. change (is_tag TagInteger TagInteger) with true. cbv iota.
      change (assert_primitive h) with (Ok tt). change (length_assert_definite (h_length h)) with (Ok tt). cbn [bind].
      specialize (H h eq_refl). destruct (check_der_int_input_cases d) as [E|[e E]]; rewrite E in H |- *; cbn [bind] in H |- *.
      * rewrite H. destruct r; try reflexivity. discriminate.
      * destruct r; try discriminate. cbn in H. injection H as <-. reflexivity.
    + rewrite !bytes_ok_app in *. tauto.
    + exact HR.
Qed.

Lemma signed_like w : int_like (int_codec w) (int_ber_content w). Proof. reflexivity. Qed.
Lemma unsigned_like w : int_like (uint_codec w) (uint_ber_content w). Proof. reflexivity. Qed.

(** What a signed type says of contents; negative values are not trimmed. *)
Lemma signed_content w h d : (1 <= w)%nat -> bytes_ok d -> h_constructed h = false ->
  (in_signed w (twos d) /\ (twos d < 0 -> (length d <= w)%nat)%Z -> int_ber_content w h d = Ok ([], twos d))
  /\ (~ (in_signed w (twos d) /\ (twos d < 0 -> (length d <= w)%nat)%Z) -> int_ber_content w h d = Err EIntegerTooLarge).
Proof.
  intros Hw Hd Hh. split.
  - intros [R L]. apply int_ber_content_ok; auto.
  - intros N. pose proof (int_ber_content_ok w h d) as S. unfold int_ber_content, assert_primitive in S |- *. rewrite Hh in S |- *. cbn [bind] in *.
    rewrite high_bit_twos in S |- * by exact Hd. destruct (Z.ltb_spec (twos d) 0) as [G|G].
    + unfold decode_array_int in *. destruct (Nat.ltb_spec w (length d)); [reflexivity|]. cbn [bind] in *.
      destruct (proj1 (S [] _ Hw Hd) eq_refl) as (_ & _ & E & R & L). rewrite E in R. exfalso. apply N. auto.
    + unfold decode_array_uint in *. rewrite high_bit_twos in S |- * by exact Hd.
      destruct (Z.ltb_spec (twos d) 0); [lia|]. destruct (Nat.ltb_spec w (length (trim_slice d))); [reflexivity|]. cbn [bind] in *.
      destruct (N.ltb_spec (int_max w) (of_be_bytes (repeat 0%N (w - length (trim_slice d)) ++ trim_slice d))); [reflexivity|].
      cbn [bind] in *. destruct (proj1 (S [] _ Hw Hd) eq_refl) as (_ & _ & E & R & L). rewrite E in R. exfalso. apply N. split; [exact R|lia].
Qed.

Lemma unsigned_content w h d : (1 <= w)%nat -> bytes_ok d -> h_constructed h = false ->
  (in_unsigned w (twos d) -> uint_ber_content w h d = Ok ([], twos d))
  /\ ((2 ^ (8 * Z.of_nat w) <= twos d)%Z -> uint_ber_content w h d = Err EIntegerTooLarge)
  /\ ((twos d < 0)%Z -> uint_ber_content w h d = Err EIntegerNegative).
Proof.
  intros Hw Hd Hh. split; [|split].
  - intros R. apply uint_ber_content_ok; auto.
  - intros G. destruct (decode_array_uint_ok w d Hw Hd) as [(ar & _ & _ & R & _)|(e & E & _)]; [unfold in_unsigned in R; lia|].
    unfold uint_ber_content, assert_primitive. rewrite Hh. cbn [bind]. rewrite E. cbn [bind]. f_equal.
    unfold decode_array_uint in E. rewrite high_bit_twos in E by exact Hd.
    assert (0 <= twos d)%Z by (pose proof (Z.pow_nonneg 2 (8 * Z.of_nat w)); lia).
    destruct (Z.ltb_spec (twos d) 0); [lia|]. destruct (w <? _)%nat; [|discriminate]. injection E as <-. reflexivity.
  - intros G. unfold uint_ber_content, assert_primitive, decode_array_uint. rewrite Hh. cbn [bind]. rewrite high_bit_twos by exact Hd.
    destruct (Z.ltb_spec (twos d) 0); [reflexivity|lia].
Qed.

(** ** C88 *)

(** Signed types, BER: the value when it fits; [IntegerTooLarge] when it does not. *)
Theorem C88_signed_ber (w : nat) (d : bytes) : (1 <= w)%nat -> bytes_ok d ->
  (in_signed w (twos d) -> (0 <= twos d)%Z \/ (length d <= w)%nat -> ber_says (int_codec w) d (Ok (twos d)))
  /\ (~ in_signed w (twos d) -> ber_says (int_codec w) d (Err EIntegerTooLarge)).
Proof.
  intros Hw Hd. split.
  - intros R L. eapply ber_says_intro; [apply signed_like|exact Hd|reflexivity|]. intros h Hh.
    apply (signed_content w h d Hw Hd Hh). split; [exact R|lia].
  - intros R. eapply ber_says_intro; [apply signed_like|exact Hd|reflexivity|]. intros h Hh.
    apply (signed_content w h d Hw Hd Hh). tauto.
Qed.
Print Assumptions C88_signed_ber.

(** Unsigned types, BER: likewise; a negative value has an error of its own. *)
Theorem C88_unsigned_ber_partial (w : nat) (d : bytes) : (1 <= w)%nat -> bytes_ok d ->
  (in_unsigned w (twos d) -> ber_says (uint_codec w) d (Ok (twos d)))
  /\ ((2 ^ (8 * Z.of_nat w) <= twos d)%Z -> ber_says (uint_codec w) d (Err EIntegerTooLarge))
  /\ ((twos d < 0)%Z -> ber_says (uint_codec w) d (Err EIntegerNegative)).
Proof.
  intros Hw Hd. split; [|split]; intros R; (eapply ber_says_intro; [apply unsigned_like|exact Hd|reflexivity|]); intros h Hh;
    apply (unsigned_content w h d Hw Hd Hh); exact R.
Qed.
Print Assumptions C88_unsigned_ber_partial.

(** The redundant octets that DER forbids are named, before anything is said of the value. *)
Definition redundancy (d : bytes) (e : der_constraint) : Prop :=
  d = [] /\ e = DCIntegerEmpty
  \/ (exists b r, d = 0 :: b :: r /\ b < 128) /\ e = DCIntegerLeadingZeroes
  \/ (exists b r, d = 0xff :: b :: r /\ 128 <= b) /\ e = DCIntegerLeadingFF.

Lemma check_redundancy d e : redundancy d e -> check_der_int_input d = Err (EDerConstraintFailed e).
Proof.
  intros [[-> ->]|[[(b & r & -> & H) ->]|[(b & r & -> & H) ->]]].
  - reflexivity.
  - cbn [check_der_int_input]. change (0 =? 0) with true. destruct (N.ltb_spec b 128); [reflexivity|lia].
  - cbn [check_der_int_input]. change (255 =? 0) with false. change (255 =? 255) with true. destruct (N.leb_spec 128 b); [reflexivity|lia].
Qed.

Lemma shortest_or_redundant d : bytes_ok d -> shortest d \/ exists e, redundancy d e.
Proof.
  intros Hd. rewrite shortest_iff by exact Hd. destruct (check_der_int_input_cases d) as [E|[e E]].
  - left. apply check_der_int_input_ok; assumption.
  - right. destruct d as [|a [|b r]]; cbn [check_der_int_input] in E.
    + exists DCIntegerEmpty. left. auto.
    + discriminate.
    + destruct ((a =? 0) && (b <? 128)) eqn:E1.
      { apply andb_true_iff in E1 as [E1 E2]. apply N.eqb_eq in E1. apply N.ltb_lt in E2. subst a.
        exists DCIntegerLeadingZeroes. right. left. split; [exists b, r|]; auto. }
      destruct ((a =? 255) && (128 <=? b)) eqn:E3; [|discriminate].
      apply andb_true_iff in E3 as [E3 E2]. apply N.eqb_eq in E3. apply N.leb_le in E2. subst a.
      exists DCIntegerLeadingFF. right. right. split; [exists b, r|]; auto.
Qed.

(** Signed types, DER. *)
Theorem C88_signed_der (w : nat) (d : bytes) : (1 <= w)%nat -> bytes_ok d ->
  (forall e, redundancy d e -> der_says (int_codec w) d (Err (EDerConstraintFailed e)))
  /\ (shortest d -> in_signed w (twos d) -> der_says (int_codec w) d (Ok (twos d)))
  /\ (shortest d -> ~ in_signed w (twos d) -> der_says (int_codec w) d (Err EIntegerTooLarge)).
Proof.
  intros Hw Hd. split; [|split].
  - intros e R. eapply der_says_intro; [apply signed_like|exact Hd|reflexivity|]. intros h Hh.
    rewrite (check_redundancy d e R). reflexivity.
  - intros S R. eapply der_says_intro; [apply signed_like|exact Hd|reflexivity|]. intros h Hh.
    apply (int_der_content_ok w h d [] (twos d) Hw Hd). auto.
  - intros S R. eapply der_says_intro; [apply signed_like|exact Hd|reflexivity|]. intros h Hh.
    apply (shortest_iff d Hd) in S. apply (check_der_int_input_ok d Hd) in S. rewrite S. cbn [bind].
    apply (signed_content w h d Hw Hd Hh). tauto.
Qed.
Print Assumptions C88_signed_der.

(** Unsigned types, DER. *)
Theorem C88_unsigned_der_partial (w : nat) (d : bytes) : (1 <= w)%nat -> bytes_ok d ->
  (forall e, redundancy d e -> der_says (uint_codec w) d (Err (EDerConstraintFailed e)))
  /\ (shortest d -> in_unsigned w (twos d) -> der_says (uint_codec w) d (Ok (twos d)))
  /\ (shortest d -> (2 ^ (8 * Z.of_nat w) <= twos d)%Z -> der_says (uint_codec w) d (Err EIntegerTooLarge))
  /\ (shortest d -> (twos d < 0)%Z -> der_says (uint_codec w) d (Err EIntegerNegative)).
Proof.
  intros Hw Hd. split.
  - intros e R. eapply der_says_intro; [apply unsigned_like|exact Hd|reflexivity|]. intros h Hh.
    rewrite (check_redundancy d e R). reflexivity.
  - split; [|split]; intros S R; (eapply der_says_intro; [apply unsigned_like|exact Hd|reflexivity|]); intros h Hh;
      apply (shortest_iff d Hd) in S; apply (check_der_int_input_ok d Hd) in S; rewrite S; cbn [bind];
      apply (unsigned_content w h d Hw Hd Hh); exact R.
Qed.
Print Assumptions C88_unsigned_der_partial.

(** The cases are all there are. *)
Theorem C88_der_cases (d : bytes) : bytes_ok d ->
  shortest d /\ (forall e, ~ redundancy d e) \/ ~ shortest d /\ exists! e, redundancy d e.
Proof.
  intros Hd. destruct (shortest_or_redundant d Hd) as [S|[e E]].
  - left. split; [exact S|]. intros e E. apply check_redundancy in E.
    apply (shortest_iff d Hd) in S. apply (check_der_int_input_ok d Hd) in S. congruence.
  - right. apply check_redundancy in E as E'. split.
    + intros S. apply (shortest_iff d Hd) in S. apply (check_der_int_input_ok d Hd) in S. congruence.
    + exists e. split; [exact E|]. intros e2 E2. apply check_redundancy in E2. congruence.
Qed.
Print Assumptions C88_der_cases.

(** The documentation says [IntegerTooLarge] for every integer that does not fit, and no error for one that
    does.  A negative value does not fit an unsigned type and gets another error; a negative value with
    redundant octets fits its type and gets this error. *)
Theorem C88_too_large_refuted :
  ~ in_unsigned 1 (twos [0xff]) /\ ber_says (uint_codec 1) [0xff] (Err EIntegerNegative)
  /\ in_signed 1 (twos [0xff; 0xff]) /\ ber_says (int_codec 1) [0xff; 0xff] (Err EIntegerTooLarge).
Proof.
  split; [intros [H _]; vm_compute in H; congruence|]. split.
  - apply C88_unsigned_ber_partial; [lia|repeat constructor|reflexivity].
  - split; [split; [vm_compute; discriminate|reflexivity]|]. eapply ber_says_intro; [apply signed_like|repeat constructor|reflexivity|].
    intros h Hh. apply signed_content; [lia|repeat constructor|exact Hh|]. intros [_ H]. specialize (H eq_refl). cbn in H. lia.
Qed.
Print Assumptions C88_too_large_refuted.

Example C88_case :
  parse_ber (int_codec 1) [2; 2; 0; 128; 9] = Err EIntegerTooLarge /\ from_ber (int_codec 1) [2; 2; 0; 127; 9] = Ok ([9], 127%Z)
  /\ parse_der (int_codec 1) [2; 2; 0; 127; 9] = Err (EDerConstraintFailed DCIntegerLeadingZeroes)
  /\ from_der (uint_codec 2) [2; 3; 1; 0; 0] = Err EIntegerTooLarge /\ integer_as (uint_codec 1) [1; 0] = Err EIntegerTooLarge
  /\ from_der (int_codec 4) [2; 0] = Err (EDerConstraintFailed DCIntegerEmpty) /\ from_ber (int_codec 4) [2; 0] = Ok ([], 0%Z)
  /\ starts_with_object Universal false 2 [0; 128] [2; 2; 0; 128; 9] [9].
Proof.
  repeat split. exists 2, [2], [2]. split; [|split; reflexivity]. split; [split|].
  - apply (id_low Universal false 2). reflexivity.
  - split; [apply (lo_short 2); reflexivity|discriminate].
  - split; [discriminate|]. intros n E. injection E as <-. reflexivity.
Qed.
