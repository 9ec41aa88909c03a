(** C86, C87: an object read as DER is written back as it was; a value read is written again and read back. *)
From Verif Require Import Base MHeader MEncode SHeader PArith PHeader PEncode MBer SBer PBer PIter PCodec PropBer.
From Verif Require Import MInt SInt PInt PropInt MSeg SSeg PSeg PBits PropSeg MOid POid PropOid MText SText PText PropText.
From Verif Require Import MTime STime MCont SCont PCont SBase PBase PTypes PropCont PropTag PropItems PropAgree.

(** ** Objects with the headers DER prescribes *)

(** The class and tag number of a type, and its form. *)
Definition own_number {A} (t : ty A) : class * N :=
  match t with
  | TBase b => (Universal, base_tag b)
  | TVec _ | TArray _ _ => (Universal, 16)
  | TSetOf _ | TBTreeSet _ _ => (Universal, 17)
  | TExplicit c n _ | TImplicit c n _ => (c, n)
  end.
Fixpoint own_form {A} (t : ty A) : bool :=
  match t with TBase b => base_form b | TImplicit _ _ t => own_form t | _ => true end.

(** An object with shortest identifier and length octets, and content [F].  The form is the one of the type,
    or any one ([free]). *)
Definition framed_as (free : bool) (cn : class * N) (form : bool) (F : bytes -> Prop) (e : bytes) : Prop :=
  exists k idb lenb d, (free = true \/ k = form) /\ ident_shortest (fst cn) k (snd cn) idb
    /\ length_shortest (Definite (blen d)) lenb /\ e = idb ++ lenb ++ d /\ F d.

(** Contents in which every header is such a header: lists of objects, one object. *)
Fixpoint framed_content (free : bool) {A} (t : ty A) (d : bytes) : Prop :=
  match t with
  | TBase _ => True
  | TVec t => exists es, d = concat es /\ Forall (framed_as free (own_number t) (own_form t) (framed_content free t)) es
  | TArray _ t => exists es, d = concat es /\ Forall (framed_as free (own_number t) (own_form t) (framed_content free t)) es
  | TSetOf t => exists es, d = concat es /\ Forall (framed_as free (own_number t) (own_form t) (framed_content free t)) es
  | TBTreeSet _ t => exists es, d = concat es /\ Forall (framed_as free (own_number t) (own_form t) (framed_content free t)) es
  | TExplicit _ _ t => framed_as free (own_number t) (own_form t) (framed_content free t) d
  | TImplicit _ _ t => framed_content free t d
  end.
Definition framed (free : bool) {A} (t : ty A) : bytes -> Prop :=
  framed_as free (own_number t) (own_form t) (framed_content free t).

(** Types whose contents, read by [parse_der], have one form only: not BIT STRING (unused bits), the times
    (offsets, fractions), BMPString (odd lengths), UniversalString (not written rightly), VisibleString (DEL)
    and ordered sets. *)
Definition canonical_base {A} (b : base A) : Prop :=
  match b with
  | BBits | BBmp | BUniversal | BUtcTime | BGeneralizedTime => False
  | BString k => k <> Visible
  | _ => True
  end.
Fixpoint canonical {A} (t : ty A) : Prop :=
  match t with
  | TBase b => canonical_base b
  | TVec t => canonical t
  | TArray _ t => canonical t
  | TSetOf t => canonical t
  | TBTreeSet _ _ => False
  | TExplicit _ _ t => canonical t
  | TImplicit _ _ t => canonical t
  end.

(** ** Contents *)

Lemma string_der_text k h d r s : k <> Visible -> bytes_ok d -> string_der_content k h d = Ok (r, s) ->
  h_constructed h = false /\ Forall (kind_alphabet k) s /\ utf8 s d.
Proof.
  intros Hv Hd. unfold string_der_content, string_ber_content. intros E. apply bind_ok in E as ([] & K & E).
  apply assert_primitive_ok in K. rewrite K in E. cbn [negb bind] in E. apply bind_ok in E as ([] & C & E).
  destruct (from_utf8 d) as [s'|] eqn:U; [|discriminate]. injection E as <- <-. split; [exact K|].
  pose proof (proj1 (from_utf8_iff d s') U) as U8. split; [|exact U8].
  assert (Q : k = Utf8 \/ k <> Utf8) by (destruct k; (left; reflexivity) || (right; discriminate)). destruct Q as [-> |Hk].
  - exact (utf8_text _ _ U8).
  - destruct (proj1 (charset_iff k d s' Hk Hd) (conj C U)) as [-> F].
    eapply Forall_impl; [|exact F]. intros c [H|[H _]]; [|contradiction]. destruct k; try exact H. congruence.
Qed.

Lemma str_text h d r s : str_der_content h d = Ok (r, s) -> h_constructed h = false /\ Forall scalar s /\ utf8 s d.
Proof.
  unfold str_der_content. intros E. apply bind_ok in E as ([] & K & E). apply assert_primitive_ok in K.
  destruct (from_utf8 d) as [s'|] eqn:U; [|discriminate]. injection E as <- <-. apply from_utf8_iff in U.
  split; [exact K|]. split; [exact (utf8_text _ _ U)|exact U].
Qed.

Lemma base_canonical {A} (b : base A) h d r v :
  base_wf b -> canonical_base b -> bytes_ok d -> h_length h = Definite (blen d) ->
  der_content (base_codec b) h d = Ok (r, v) -> h_constructed h = base_form b /\ sx_content (base_syntax b) v d.
Proof.
  intros W C Hd L. destruct b; try contradiction; cbn [base_codec der_content bool_codec null_codec int_codec uint_codec enum_codec
    integer_codec octet_codec slice_codec oid_codec string_codec str_codec ostring_codec raw_codec base_form base_syntax];
    cbn [base_wf canonical_base] in W, C; intros E.
  - unfold map_snd, boolean_der_content in E. apply bind_ok in E as ([r1 x] & E & F). apply bind_ok in E as ([r2 y] & E & G).
    destruct (proj1 (boolean_ber_content_ok h d y Hd L) (ex_intro _ r2 E)) as [K ->].
    destruct ((y =? 0) || (y =? 0xff)) eqn:V; [|discriminate]. injection G as _ <-. injection F as _ <-.
    split; [exact K|]. split; [exact I|]. cbv beta. unfold to_bool. apply orb_true_iff in V as [V|V]; apply N.eqb_eq in V; subst; reflexivity.
  - unfold null_ber_content in E. apply bind_ok in E as ([] & K & E). apply assert_primitive_ok in K. rewrite L in E.
    split; [exact K|]. split; [exact I|]. cbv beta. destruct d as [|x d]; [reflexivity|]. exfalso.
    cbn [blength_eqb] in E. destruct (N.eqb_spec (blen (x :: d)) 0) as [Z|Z]; [|discriminate]. unfold blen in Z. cbn in Z. lia.
  - apply int_der_content_ok in E as (K & _ & S & -> & R); [|lia|exact Hd]. split; [exact K|]. split; [exact R|].
    split; [exact Hd|]. auto.
  - apply uint_der_content_ok in E as (K & _ & S & -> & R); [|lia|exact Hd]. split; [exact K|]. split; [exact R|].
    split; [exact Hd|]. auto.
  - unfold enum_der_content in E. apply bind_ok in E as ([] & _ & E).
    apply uint_der_content_ok in E as (K & _ & S & -> & R); [|lia|exact Hd]. split; [exact K|]. split; [exact R|].
    split; [exact Hd|]. auto.
  - unfold integer_der_content in E. apply bind_ok in E as ([] & S & E).
    apply integer_ber_content_ok in E as (K & Lv & Ed & _).
    assert (r = []) by (apply blen_zero; rewrite Ed, blen_app in L; assert (Definite (blen v) = Definite (blen v + blen r)) by congruence; injection H as H; lia).
    subst r. rewrite app_nil_r in Ed. subst d. split; [exact K|]. split; [|reflexivity]. split; [exact Hd|].
    apply (shortest_iff v Hd). apply (check_der_int_input_ok v Hd). exact S.
  - unfold octet_der_content in E. apply bind_ok in E as ([] & K & E). apply assert_primitive_ok in K.
    unfold octet_ber_content, octet_prim in E. rewrite K in E. cbn [negb] in E. injection E as _ <-. split; [exact K|]. split; [exact Hd|reflexivity].
  - apply bind_ok in E as ([] & K & E). apply assert_primitive_ok in K. unfold slice_ber_content in E. rewrite K in E.
    injection E as _ <-. split; [exact K|]. split; [exact Hd|reflexivity].
  - unfold oid_der_content in E. apply oid_content_ok in E as (K & Hn & _ & ->). split; [exact K|]. split; [|reflexivity].
    cbn. auto.
  - apply string_der_text in E as (K & F & U); try assumption. split; [exact K|]. split; assumption.
  - apply str_text in E as (K & F & U). split; [exact K|]. split; assumption.
  - apply str_text in E as (K & F & U). split; [exact K|]. split; assumption.
  - apply raw_content_ok in E as (K & _ & ->). split; [exact K|]. split; [exact Hd|reflexivity].
  - apply raw_content_ok in E as (K & _ & ->). split; [exact K|]. split; [exact Hd|reflexivity].
Qed.

Lemma own_number_small {A} (t : ty A) : wf t -> snd (own_number t) < 2 ^ 32.
Proof.
  destruct t as [A b|A t|A n t|A t|A cmp t|A c n t|A c n t]; cbn [wf own_number snd]; try (intros; lia).
  intros H. apply (bs_small _ _ _ _ _ (base_types_sound b H)).
Qed.
Lemma own_ident {A} (t : ty A) v : wf t -> sx_ident (syntax_of t) v = (fst (own_number t), own_form t, snd (own_number t)).
Proof.
  induction t as [A b|A t IH|A n t IH|A t IH|A cmp t IH|A c n t IH|A c n t IH]; cbn [wf syntax_of own_number own_form fst snd]; intros H;
    try reflexivity.
  - apply (bs_ident _ _ _ _ _ (base_types_sound b H)).
  - cbn. rewrite IH by apply H. reflexivity.
Qed.

(** The object at the start of an input. *)
Lemma framed_object free {A} (t : ty A) e rest :
  wf t -> bytes_ok (e ++ rest) -> blen e < 2 ^ 64 -> framed free t e ->
  exists k h d, parse_der_any (e ++ rest) = Ok (rest, mk_any h d) /\ h_constructed h = k
    /\ h_length h = Definite (blen d) /\ (free = true \/ k = own_form t) /\ framed_content free t d
    /\ bytes_ok d /\ blen d + 2 <= blen e /\ object (fst (own_number t)) k (snd (own_number t)) d e.
Proof.
  intros W Hi Hn (k & idb & lenb & d & Hk & S1 & S2 & -> & F). rewrite <- !app_assoc in Hi.
  rewrite !bytes_ok_app in Hi. destruct Hi as (_ & _ & Hd & Hr).
  assert (O : object (fst (own_number t)) k (snd (own_number t)) d (idb ++ lenb ++ d)).
  { apply object_intro; try assumption; [apply own_number_small; exact W|]. rewrite !blen_app in Hn. lia. }
  destruct (object_parse_der_any _ _ _ _ _ rest O (own_number_small t W) Hd Hr) as (rt & rh & E).
  exists k, (mk_header (fst (own_number t)) k (snd (own_number t)) (Definite (blen d)) rt rh), d.
  split; [exact E|]. split; [reflexivity|]. split; [reflexivity|]. split; [exact Hk|]. split; [exact F|]. split; [exact Hd|].
  split; [exact (object_size _ _ _ _ _ O)|exact O].
Qed.

(** A reader that gives back, from a framed object, a value with that encoding. *)
Definition gives_back free {A} (t : ty A) (p : bytes -> res (bytes * A)) : Prop :=
  forall e rest rem v, bytes_ok (e ++ rest) -> blen e < 2 ^ 64 -> framed free t e ->
    p (e ++ rest) = Ok (rem, v) -> rem = rest /\ encodes (syntax_of t) v e.

Lemma items_back free {A} (t : ty A) p es vs : gives_back free t p ->
  Forall (framed free t) es -> bytes_ok (concat es) -> blen (concat es) < 2 ^ 64 ->
  reads_all p (concat es) vs -> items_content (syntax_of t) vs (concat es).
Proof.
  intros G F. revert vs. induction F as [|e es H F IH]; intros vs Hi Hn R; cbn [concat] in *.
  - inversion R; subst; [constructor|congruence].
  - rewrite blen_app in Hn. inversion R as [E|i rem v vs' Hne E R' E1]; subst.
    + exfalso. destruct H as (k & idb & lenb & d & _ & S1 & _ & -> & _). symmetry in E. apply app_eq_nil in E as [E _].
      apply app_eq_nil in E as [-> _]. apply ident_shortest_octets, ident_octets_len in S1. unfold blen in S1. cbn in S1. lia.
    + destruct (G e (concat es) rem v Hi ltac:(lia) H E) as [-> En]. apply bytes_ok_app in Hi as [_ Hi].
      constructor; [exact En|]. apply IH; [exact Hi|lia|exact R'].
Qed.

Lemma typed_canonical {A} (t : ty A) : wf t -> canonical t -> forall h d r v,
  bytes_ok d -> h_length h = Definite (blen d) -> blen d < 2 ^ 64 -> framed_content true t d ->
  ps_der_content (parser_of t) h d = Ok (r, v) -> h_constructed h = own_form t /\ sx_content (syntax_of t) v d.
Proof.
  assert (P : forall A (t : ty A), wf t ->
    (forall h d r v, bytes_ok d -> h_length h = Definite (blen d) -> blen d < 2 ^ 64 -> framed_content true t d ->
       ps_der_content (parser_of t) h d = Ok (r, v) -> h_constructed h = own_form t /\ sx_content (syntax_of t) v d) ->
    gives_back true t (ps_parse_der (parser_of t))).
  { clear A t. intros A t W IH e rest rem v Hi Hn F E.
    destruct (framed_object true t e rest W Hi Hn F) as (k & h & d & E1 & K & L & _ & Fd & Hd & Hs & O).
    apply typed_parse_der in E as (a & r & E & _ & C); [|exact Hi]. rewrite E1 in E. injection E as <- <-.
    cbn [any_header any_data] in C. split; [reflexivity|].
    destruct (IH h d r v Hd L ltac:(lia) Fd C) as [K' C']. rewrite K in K'. subst k. rewrite K' in O.
    exact (encodes_intro _ v _ _ _ d e (own_ident t v W) C' O). }
  induction t as [A b|A t IH|A n t IH|A t IH|A cmp t IH|A c n t IH|A c n t IH]; cbn [wf canonical]; intros W Cn h d r v Hd L Hn F E.
  - exact (base_canonical b h d r v W Cn Hd L E).
  - apply vec_der_ok in E as (K & _ & R); [|apply parser_regular|exact Hd]. split; [exact K|].
    destruct F as (es & -> & F). exact (items_back _ _ _ _ _ (P _ _ W (IH W Cn)) F Hd Hn R).
  - cbn [parser_of array_parser default_parser ps_der_content] in E. unfold array_content in E. apply bind_ok in E as ([r' w] & E & G).
    apply vec_der_ok in E as (K & _ & R); [|apply parser_regular|exact Hd]. split; [exact K|].
    destruct (Nat.eqb_spec (length w) n) as [Lw|Lw]; [|discriminate]. injection G as _ <-. split; [exact Lw|].
    destruct F as (es & -> & F). exact (items_back _ _ _ _ _ (P _ _ W (IH W Cn)) F Hd Hn R).
  - apply setof_der_ok in E as (K & _ & R); [|apply parser_regular|exact Hd]. split; [exact K|].
    destruct F as (es & -> & F). exact (items_back _ _ _ _ _ (P _ _ W (IH W Cn)) F Hd Hn R).
  - contradiction.
  - apply explicit_content_ok in E as (K & _ & _ & E). split; [exact K|]. rewrite <- (app_nil_r d) in E, Hd.
    apply (P _ _ (proj2 W) (IH (proj2 W) Cn) d [] r v Hd Hn F E).
  - apply implicit_content_ok in E as (_ & E). destruct (IH (proj2 (proj2 W)) Cn h d r v Hd L Hn F E) as [K C]. split; [exact K|exact C].
Qed.

Theorem C86_parse_partial {A} (t : ty A) (i x rem : bytes) (v : A) :
  wf t -> canonical t -> bytes_ok (i ++ x) -> blen i < 2 ^ 24 -> framed true t i ->
  ps_parse_der (parser_of t) (i ++ x) = Ok (rem, v) ->
  rem = x /\ encodes (syntax_of t) v i /\ to_vec (wr_der (writer_of t) v) = Ok i /\ to_vec (wr_ber (writer_of t) v) = Ok i.
Proof.
  intros W C Hi Hn F E.
  destruct (framed_object true t i x W Hi ltac:(lia) F) as (k & h & d & E1 & K & L & _ & Fd & Hd & Hs & O).
  apply typed_parse_der in E as (a & r & E & _ & Ct); [|exact Hi]. rewrite E1 in E. injection E as <- <-.
  cbn [any_header any_data] in Ct. split; [reflexivity|].
  destruct (typed_canonical t W C h d r v Hd L ltac:(lia) Fd Ct) as [K' C']. rewrite K in K'. subst k. rewrite K' in O.
  pose proof (encodes_intro _ v _ _ _ d i (own_ident t v W) C' O) as En. split; [exact En|].
  destruct (C26_encoding_roundtrip t v i W En Hn) as (W1 & W2 & _). auto.
Qed.
Print Assumptions C86_parse_partial.

(** Two such objects read as the same value are the same octets. *)
Theorem C86_injective {A} (t : ty A) (i j x y rx ry : bytes) (v : A) :
  wf t -> canonical t -> bytes_ok (i ++ x) -> bytes_ok (j ++ y) -> blen i < 2 ^ 24 -> blen j < 2 ^ 24 ->
  framed true t i -> framed true t j ->
  ps_parse_der (parser_of t) (i ++ x) = Ok (rx, v) -> ps_parse_der (parser_of t) (j ++ y) = Ok (ry, v) -> i = j.
Proof.
  intros W C Hi Hj Ni Nj Fi Fj Ei Ej.
  destruct (C86_parse_partial t i x rx v W C Hi Ni Fi Ei) as (_ & _ & E1 & _).
  destruct (C86_parse_partial t j y ry v W C Hj Nj Fj Ej) as (_ & _ & E2 & _). congruence.
Qed.
Print Assumptions C86_injective.

(** ** The same through [from_der] *)

(** BIT STRING is checked by [from_der], the number of octets of an ENUMERATED is not; contents under an
    implicit tag are not checked, so that only those with one form are left. *)
Fixpoint canonical_from {A} (t : ty A) : Prop :=
  match t with
  | TBase b => match b with BBits => True | BEnum => False | _ => canonical_base b end
  | TVec t => canonical_from t
  | TSetOf t => canonical_from t
  | TArray _ _ | TBTreeSet _ _ => False
  | TExplicit _ _ t => canonical_from t
  | TImplicit _ _ t => one_form t /\ canonical t
  end.

Lemma bits_canonical h d r v : bytes_ok d -> h_length h = Definite (blen d) ->
  bitstring_check (mk_any h d) = Ok tt -> bitstring_ber_content h d = Ok (r, v) ->
  h_constructed h = false /\ sx_content bitstring_syntax v d.
Proof.
  intros Hd L Ck E. assert (Hf : fits h d) by (unfold fits; rewrite L; reflexivity).
  assert (K : h_constructed h = false).
  { unfold bitstring_check in Ck. apply bind_ok in Ck as ([] & K & _). apply assert_primitive_ok in K. exact K. }
  split; [exact K|].
  assert (HV : bits_value d (bs_bits v)).
  { destruct (proj1 (bitstring_content_iff h d (bs_bits v) Hd Hf)) as [[_ V]|[K' _]]; [eauto|exact V|congruence]. }
  apply (bitstring_check_ok h d _ Hd L HV) in Ck as [_ Z].
  assert (DV : der_bits_value d (bs_bits v)) by (apply der_bits_value_iff; auto).
  apply bitstring_content_prim in E as (u & bs & -> & Hu & Hu2 & _ & ->); [|exact Hd|exact Hf|exact K].
  destruct DV as (u' & bs' & pad & E & B & Lp & _ & F). injection E as <- <-. apply bytes_ok_cons in Hd as [_ Hb].
  pose proof (proj1 (bytes_bits_iff _ _) B) as B'. assert (Len := f_equal (@length bool) B'). rewrite app_length, bits_of_length in Len.
  unfold blen in Lp, Hu2.
  assert (Hh : holds_bits (mk_bits 0 bs (8 * length bs - N.to_nat u)) (bs_bits (mk_bits 0 bs (8 * length bs - N.to_nat u)))).
  { exists [], pad. cbn [bs_raw bs_head bs_len app]. split; [exact B|]. split; [reflexivity|]. lia. }
  split.
  - split; [reflexivity|]. split; [exact Hb|]. exists (bs_bits (mk_bits 0 bs (8 * length bs - N.to_nat u))), pad.
    cbn [bs_raw bs_len]. split; [exact B|]. split; [|split; [lia|exact F]]. lia.
  - eexists. split; [exact Hh|]. exists u, bs, pad. unfold blen. auto 8.
Qed.

Lemma one_form_content_framed {A} (t : ty A) d : one_form t -> framed_content true t d.
Proof.
  induction t as [A b|A t IH|A n t IH|A t IH|A cmp t IH|A c n t IH|A c n t IH]; cbn [one_form framed_content]; try contradiction; auto.
Qed.
Lemma one_form_same {A} (t : ty A) c n : implicit_ok t -> one_form t -> retag_ok c n t /\ ber_same t.
Proof. destruct t; cbn; tauto. Qed.

Lemma typed_canonical_from {A} (t : ty A) : wf t -> canonical_from t -> gives_back false t (lg_from_der (legacy_of t)).
Proof.
  induction t as [A b|A t IH|A n t IH|A t IH|A cmp t IH|A c n t IH|A c n t IH]; cbn [canonical_from]; intros W Cn e rest rem v Hi Hn F E;
    try contradiction;
    match goal with |- context [encodes (syntax_of ?ty) v e] =>
      destruct (framed_object false ty e rest W Hi Hn F) as (k & h & d & E1 & K & L & Hk & Fd & Hd & Hs & O);
      destruct Hk as [Hk|Hk]; [discriminate|]; subst k; rewrite Hk in O;
      assert (G : rem = rest -> sx_content (syntax_of ty) v d -> rem = rest /\ encodes (syntax_of ty) v e)
        by (intros ? C; split; [assumption|exact (encodes_intro _ v _ _ _ d e (own_ident ty v W) C O)])
    end; cbn [wf] in W.
  - cbn [legacy_of codec_legacy lg_from_der] in E. apply base_from_der in E as (a & r & E & Ac & Ck & B). rewrite E1 in E. injection E as <- <-.
    cbn [any_header any_data] in *. apply G; [reflexivity|].
    assert (Q : match b with BEnum | BBits => False | _ => True end /\ canonical_base b \/ sx_content (syntax_of (TBase b)) v d).
    { destruct b; cbn [canonical_base] in Cn |- *; try contradiction; auto. right. exact (proj2 (bits_canonical h d r v Hd L Ck B)). }
    destruct Q as [[Q1 Q2]|Q]; [|exact Q].
    destruct (proj2 (base_der_exact b h d v Q1 L)) as (r' & D); [eauto|]. apply (base_canonical b h d r' v W Q2 Hd L D).
  - cbn [legacy_of vec_legacy lg_from_der] in E. unfold vec_from_der in E. rewrite E1 in E. cbn [bind any_header any_data] in E.
    apply bind_ok in E as ([] & _ & E). apply bind_ok in E as (w & E & X). injection X as <- <-. apply G; [reflexivity|].
    apply seq_items_reads in E; [|apply C51_consuming|exact Hd]. destruct Fd as (es & -> & Fe).
    exact (items_back _ _ _ _ _ (IH W Cn) Fe Hd ltac:(lia) E).
  - cbn [legacy_of setof_legacy lg_from_der] in E. unfold setof_from_der in E. rewrite from_der_any_eq, E1 in E. cbn [bind any_header any_data] in E.
    apply bind_ok in E as ([] & _ & E). apply bind_ok in E as (w & E & X). injection X as <- <-. apply G; [reflexivity|].
    apply seq_items_reads in E; [|apply C51_consuming|exact Hd]. destruct Fd as (es & -> & Fe).
    exact (items_back _ _ _ _ _ (IH W Cn) Fe Hd ltac:(lia) E).
  - cbn [legacy_of explicit_legacy lg_from_der] in E. unfold explicit_from_der in E. rewrite from_der_any_eq, E1 in E. cbn [bind any_header any_data] in E.
    apply bind_ok in E as ([] & _ & E). apply bind_ok in E as ([] & _ & E). apply bind_ok in E as ([] & _ & E).
    apply bind_ok in E as ([r x] & E & X). injection X as <- <-. apply G; [reflexivity|].
    rewrite <- (app_nil_r d) in E, Hd. apply (IH (proj2 W) Cn d [] r x Hd ltac:(lia) Fd E).
  - destruct Cn as [O1 Cn]. apply (C45_der_no_more (TImplicit c n t)) in E;
      [|split; [exact O1|apply one_form_same; [apply W|exact O1]]|exact Hi].
    apply typed_parse_der in E as (a & r & E & _ & C); [|exact Hi]. rewrite E1 in E. injection E as <- <-.
    apply G; [reflexivity|]. apply (typed_canonical (TImplicit c n t) W Cn h d r v Hd L ltac:(lia)); [|exact C].
    apply one_form_content_framed. exact O1.
Qed.

Theorem C86_from_partial {A} (t : ty A) (i x rem : bytes) (v : A) :
  wf t -> canonical_from t -> bytes_ok (i ++ x) -> blen i < 2 ^ 24 -> framed false t i ->
  lg_from_der (legacy_of t) (i ++ x) = Ok (rem, v) ->
  rem = x /\ encodes (syntax_of t) v i /\ to_vec (wr_der (writer_of t) v) = Ok i /\ to_vec (wr_ber (writer_of t) v) = Ok i.
Proof.
  intros W C Hi Hn F E. destruct (typed_canonical_from t W C i x rem v Hi ltac:(lia) F E) as [-> En].
  split; [reflexivity|]. split; [exact En|]. destruct (C26_encoding_roundtrip t v i W En Hn) as (W1 & W2 & _). auto.
Qed.
Print Assumptions C86_from_partial.

(** Missing: headers that are not the ones DER prescribes are accepted, and not written again. *)
Theorem C86_header_refuted :
  Forall (fun i => let t := TBase (BUint 1) in
    ps_parse_der (parser_of t) i = Ok ([], 5%Z) /\ lg_from_der (legacy_of t) i = Ok ([], 5%Z)
    /\ to_vec (wr_der (writer_of t) 5%Z) = Ok [2; 1; 5] /\ i <> [2; 1; 5])
  [[0x82; 1; 5]; [2; 0x81; 1; 5]; [0x1f; 2; 1; 5]; [0x1f; 0x80; 2; 1; 5]].
Proof. repeat constructor; cbv zeta; repeat split; try (vm_compute; reflexivity); discriminate. Qed.
Print Assumptions C86_header_refuted.

(** Missing, with right headers: the order of a set, octets after the object under an explicit tag, an odd
    BMPString, a time with an offset. *)
Theorem C86_content_refuted :
  let rewritten A (t : ty A) i i' := exists v,
    ps_parse_der (parser_of t) i = Ok ([], v) /\ lg_from_der (legacy_of t) i = Ok ([], v)
    /\ to_vec (wr_der (writer_of t) v) = Ok i' /\ i <> i' in
  rewritten _ (TBTreeSet Z.compare (TBase (BInt 1))) [0x31; 6; 2; 1; 5; 2; 1; 4] [0x31; 6; 2; 1; 4; 2; 1; 5]
  /\ rewritten _ (TExplicit ContextSpecific 1 (TBase (BInt 1))) [0xa1; 5; 2; 1; 5; 5; 0] [0xa1; 3; 2; 1; 5]
  /\ rewritten _ (TBase BBmp) [0x1e; 1; 65] [0x1e; 2; 0; 65]
  /\ rewritten _ (TBase BUtcTime)
       ([0x17; 17] ++ [57; 57; 49; 50; 51; 49; 50; 51; 53; 57; 53; 57; 43; 48; 49; 48; 48])
       ([0x17; 13] ++ [57; 57; 49; 50; 51; 49; 50; 51; 53; 57; 53; 57; 90]).
Proof.
  cbv zeta. repeat split; eexists; (split; [vm_compute; reflexivity|]); (split; [vm_compute; reflexivity|]);
    (split; [vm_compute; reflexivity|discriminate]).
Qed.
Print Assumptions C86_content_refuted.

(** Missing, through [from_der] only: the octets of an ENUMERATED, and of an INTEGER under an implicit tag,
    need not be the fewest; a sequence of elements may be primitive. *)
Theorem C86_from_refuted :
  let rewritten A (t : ty A) i i' := exists v,
    lg_from_der (legacy_of t) i = Ok ([], v) /\ to_vec (wr_der (writer_of t) v) = Ok i' /\ i <> i' in
  rewritten _ (TBase BEnum) [0x0a; 2; 0; 5] [0x0a; 1; 5]
  /\ rewritten _ (TImplicit ContextSpecific 1 (TBase (BInt 1))) [0x81; 2; 0; 5] [0x81; 1; 5]
  /\ rewritten _ (TVec (TBase (BUint 1))) [0x10; 3; 2; 1; 5] [0x30; 3; 2; 1; 5].
Proof. cbv zeta. repeat split; eexists; (split; [vm_compute; reflexivity|]); (split; [vm_compute; reflexivity|discriminate]). Qed.
Print Assumptions C86_from_refuted.

Example C86_case :
  let t := TVec (TExplicit ContextSpecific 3 (TSetOf (TBase (BInt 2)))) in
  let i := [0x30; 9; 0xa3; 7; 0x31; 5; 2; 1; 7; 5; 0] in
  let j := [0x30; 11; 0xa3; 9; 0x31; 7; 2; 1; 7; 2; 2; 1; 0] in
  wf t /\ canonical t /\ canonical_from t /\ framed true t j /\ framed false t j
  /\ ps_parse_der (parser_of t) (j ++ [9]) = Ok ([9], [[7; 256]%Z]) /\ lg_from_der (legacy_of t) (j ++ [9]) = Ok ([9], [[7; 256]%Z])
  /\ to_vec (wr_der (writer_of t) [[7; 256]%Z]) = Ok j /\ ps_parse_der (parser_of t) i = Err EUnexpectedTag.
Proof.
  cbv zeta. split; [cbn; lia|]. split; [exact I|]. split; [exact I|].
  assert (X : forall free, framed free (TVec (TExplicit ContextSpecific 3 (TSetOf (TBase (BInt 2)))))
    [0x30; 11; 0xa3; 9; 0x31; 7; 2; 1; 7; 2; 2; 1; 0]).
  { intros free. exists true, [0x30], [11], [0xa3; 9; 0x31; 7; 2; 1; 7; 2; 2; 1; 0].
    split; [right; reflexivity|]. split; [|split; [|split; [reflexivity|]]].
    { apply (ids_low Universal true 16). reflexivity. }
    { apply (los_short 11). reflexivity. }
    exists [[0xa3; 9; 0x31; 7; 2; 1; 7; 2; 2; 1; 0]]. split; [reflexivity|]. constructor; [|constructor].
    exists true, [0xa3], [9], [0x31; 7; 2; 1; 7; 2; 2; 1; 0].
    split; [right; reflexivity|]. split; [|split; [|split; [reflexivity|]]].
    { apply (ids_low ContextSpecific true 3). reflexivity. }
    { apply (los_short 9). reflexivity. }
    exists true, [0x31], [7], [2; 1; 7; 2; 2; 1; 0].
    split; [right; reflexivity|]. split; [|split; [|split; [reflexivity|]]].
    { apply (ids_low Universal true 17). reflexivity. }
    { apply (los_short 7). reflexivity. }
    exists [[2; 1; 7]; [2; 2; 1; 0]]. split; [reflexivity|]. constructor; [|constructor; [|constructor]].
    - exists false, [2], [1], [7]. split; [right; reflexivity|]. split; [|split; [|split; [reflexivity|exact I]]].
      { apply (ids_low Universal false 2). reflexivity. }
      { apply (los_short 1). reflexivity. }
    - exists false, [2], [2], [1; 0]. split; [right; reflexivity|]. split; [|split; [|split; [reflexivity|exact I]]].
      { apply (ids_low Universal false 2). reflexivity. }
      { apply (los_short 2). reflexivity. } }
  split; [apply X|]. split; [apply X|]. repeat split; vm_compute; reflexivity.
Qed.

(** ** C87: a value read from BER is a value of the type, and is written in DER *)

(** Types whose readers give values of the type only.  Not: INTEGER kept as octets (not the fewest), BIT STRING
    (unused bits), VisibleString (DEL), BMPString and UniversalString (the empty string, wide characters),
    times (offsets). *)
Definition rewritable_base {A} (b : base A) : Prop :=
  match b with
  | BInteger | BBits | BBmp | BUniversal | BUtcTime | BGeneralizedTime => False
  | BString k => k <> Visible
  | _ => True
  end.
(** [cmp] is the [Ord] of a type: a total order. *)
Definition total_order {T} (cmp : T -> T -> comparison) : Prop :=
  (forall a b, cmp b a = CompOpp (cmp a b)) /\ (forall a b c, cmp a b = Lt -> cmp b c = Lt -> cmp a c = Lt)
  /\ (forall a b c, cmp a b = Eq -> cmp a c = cmp b c).
Fixpoint rewritable {A} (t : ty A) : Prop :=
  match t with
  | TBase b => rewritable_base b
  | TVec t => rewritable t
  | TArray _ t => rewritable t
  | TSetOf t => rewritable t
  | TBTreeSet cmp t => total_order cmp /\ rewritable t
  | TExplicit _ _ t => rewritable t
  | TImplicit _ _ t => rewritable t
  end.

Lemma string_ber_text k h d r s : k <> Visible -> bytes_ok d -> fits h d -> string_ber_content k h d = Ok (r, s) ->
  Forall (kind_alphabet k) s.
Proof.
  intros Hv Hd Hf. unfold string_ber_content. intros E. apply bind_ok in E as ([r' o] & E1 & E). apply bind_ok in E as ([] & C & E).
  assert (So : string_octets (h_constructed h) d o) by (apply octets_data; eauto).
  pose proof (string_octets_ok _ _ _ Hd So) as Ho.
  destruct (from_utf8 o) as [s'|] eqn:U; [|discriminate]. injection E as <- <-.
  assert (Q : k = Utf8 \/ k <> Utf8) by (destruct k; (left; reflexivity) || (right; discriminate)). destruct Q as [-> |Hk].
  - exact (utf8_text _ _ (proj1 (from_utf8_iff o s') U)).
  - destruct (proj1 (charset_iff k o s' Hk Ho) (conj C U)) as [-> F].
    eapply Forall_impl; [|exact F]. intros c [H|[H _]]; [|contradiction]. destruct k; try exact H. congruence.
Qed.

Lemma base_valid {A} (b : base A) h d r v :
  base_wf b -> rewritable_base b -> bytes_ok d -> fits h d ->
  ber_content (base_codec b) h d = Ok (r, v) -> sx_valid (base_syntax b) v.
Proof.
  intros W C Hd Hf. destruct b; try contradiction; cbn [base_codec ber_content bool_codec null_codec int_codec uint_codec enum_codec
    octet_codec slice_codec oid_codec string_codec str_codec ostring_codec raw_codec base_syntax];
    cbn [base_wf rewritable_base] in W, C; intros E.
  - exact I.
  - exact I.
  - apply int_ber_content_ok in E as (_ & _ & _ & R & _); [exact R|lia|exact Hd].
  - apply uint_ber_content_ok in E as (_ & _ & _ & R); [exact R|lia|exact Hd].
  - unfold enum_ber_content in E. apply bind_ok in E as ([] & _ & E).
    apply uint_ber_content_ok in E as (_ & _ & _ & R); [exact R|lia|exact Hd].
  - change (bytes_ok v). destruct (proj1 (octet_content_iff h d v Hd Hf)) as [[_ V]|[_ V]]; [eauto| |].
    + unfold octets_value in V. subst. exact Hd.
    + eapply seg_octets_ok; eassumption.
  - unfold slice_ber_content in E. destruct (h_constructed h); [discriminate|]. injection E as _ <-. exact Hd.
  - apply oid_content_ok in E as (_ & Hn & _ & ->). cbn. auto.
  - exact (string_ber_text _ _ _ _ _ C Hd Hf E).
  - unfold str_ber_content in E. destruct (h_constructed h); [discriminate|]. destruct (from_utf8 d) as [s|] eqn:U; [|discriminate].
    injection E as _ <-. exact (utf8_text _ _ (proj1 (from_utf8_iff d s) U)).
  - exact (string_ber_text Utf8 _ _ _ _ ltac:(discriminate) Hd Hf E).
  - apply raw_content_ok in E as (_ & _ & ->). exact Hd.
  - apply raw_content_ok in E as (_ & _ & ->). exact Hd.
Qed.

(** Collecting into a set gives an ascending list of the elements. *)
Lemma set_insert_in {T} (cmp : T -> T -> comparison) x l y : In y (set_insert cmp x l) -> y = x \/ In y l.
Proof.
  induction l as [|z l IH]; cbn [set_insert In]; [intros [-> |[]]; auto|]. destruct (cmp x z); cbn [In]; intuition.
Qed.
Lemma set_insert_sorted {T} (cmp : T -> T -> comparison) x l : total_order cmp -> ascending cmp l -> ascending cmp (set_insert cmp x l).
Proof.
  intros (An & Tr & Eq0). induction l as [|z l IH]; cbn [set_insert ascending]; [auto|]. intros [F H].
  destruct (cmp x z) eqn:C; cbn [ascending].
  - split; [|exact H]. eapply Forall_impl; [|exact F]. intros y Hy. rewrite (Eq0 _ _ y C). exact Hy.
  - split; [constructor; [exact C|]|split; assumption]. eapply Forall_impl; [|exact F]. intros y Hy. eapply Tr; eassumption.
  - split; [|apply IH; exact H]. apply Forall_forall. intros y Hy. apply set_insert_in in Hy as [-> |Hy].
    + rewrite An, C. reflexivity.
    + rewrite Forall_forall in F. apply F. exact Hy.
Qed.
Lemma set_of_list_facts {T} (cmp : T -> T -> comparison) (Q : T -> Prop) l : total_order cmp -> Forall Q l ->
  Forall Q (set_of_list cmp l) /\ ascending cmp (set_of_list cmp l).
Proof.
  intros O F. unfold set_of_list.
  assert (G : forall l acc, Forall Q l -> Forall Q acc -> ascending cmp acc ->
    Forall Q (fold_left (fun s x => set_insert cmp x s) l acc) /\ ascending cmp (fold_left (fun s x => set_insert cmp x s) l acc)).
  { clear l F. induction l as [|x l IH]; intros acc Fl Fa Ha; cbn [fold_left]; [auto|]. inversion Fl; subst. apply IH; [assumption| |].
    - apply Forall_forall. intros y Hy. apply set_insert_in in Hy as [-> |Hy]; [assumption|]. rewrite Forall_forall in Fa. auto.
    - apply set_insert_sorted; assumption. }
  apply G; [exact F|constructor|exact I].
Qed.

Lemma any_ber_fits i rem a : bytes_ok i -> parse_ber_any i = Ok (rem, a) -> bytes_ok (any_data a) /\ fits (any_header a) (any_data a).
Proof.
  intros Hi P. split; [apply (any_ber_object _ _ _ Hi P)|].
  apply parse_ber_any_ok in P as (c & k & t & l & idb & lenb & bs & HR & -> & Hc & ->); [|exact Hi].
  eapply content_fits; eassumption.
Qed.

Lemma typed_valid {A} (t : ty A) : wf t -> rewritable t -> forall h d r v,
  bytes_ok d -> fits h d -> ps_ber_content (parser_of t) h d = Ok (r, v) -> sx_valid (syntax_of t) v.
Proof.
  assert (P : forall A (t : ty A),
    (forall h d r v, bytes_ok d -> fits h d -> ps_ber_content (parser_of t) h d = Ok (r, v) -> sx_valid (syntax_of t) v) ->
    forall i rem v, bytes_ok i -> ps_parse_ber (parser_of t) i = Ok (rem, v) -> sx_valid (syntax_of t) v).
  { clear A t. intros A t IH i rem v Hi E. apply typed_parse_ber in E as (a & r & E & _ & C).
    destruct (any_ber_fits _ _ _ Hi E) as [Hd Hf]. exact (IH _ _ _ _ Hd Hf C). }
  assert (Q : forall A (t : ty A),
    (forall h d r v, bytes_ok d -> fits h d -> ps_ber_content (parser_of t) h d = Ok (r, v) -> sx_valid (syntax_of t) v) ->
    forall i vs, bytes_ok i -> reads_all (ps_parse_ber (parser_of t)) i vs -> Forall (sx_valid (syntax_of t)) vs).
  { clear A t. intros A t IH i vs Hi R. induction R as [|i rem v vs Hne E R IHR]; constructor.
    - exact (P _ _ IH _ _ _ Hi E).
    - apply IHR. exact (typed_rest_ber t i rem v Hi E). }
  induction t as [A b|A t IH|A n t IH|A t IH|A cmp t IH|A c n t IH|A c n t IH]; cbn [wf rewritable]; intros W R h d r v Hd Hf E.
  - exact (base_valid b h d r v W R Hd Hf E).
  - apply vec_ber_ok in E as (_ & _ & E); [|apply parser_regular|exact Hd]. exact (Q _ _ (IH W R) _ _ Hd E).
  - cbn [parser_of array_parser default_parser ps_ber_content] in E. unfold array_content in E. apply bind_ok in E as ([r' w] & E & G).
    apply vec_ber_ok in E as (_ & _ & E); [|apply parser_regular|exact Hd].
    destruct (Nat.eqb_spec (length w) n) as [Lw|Lw]; [|discriminate]. injection G as _ <-. split; [exact (Q _ _ (IH W R) _ _ Hd E)|exact Lw].
  - apply setof_ber_ok in E as (_ & _ & E); [|apply parser_regular|exact Hd]. exact (Q _ _ (IH W R) _ _ Hd E).
  - cbn [parser_of btreeset_parser default_parser ps_ber_content] in E. unfold btreeset_content in E. apply bind_ok in E as ([r' w] & E & G).
    apply setof_ber_ok in E as (_ & _ & E); [|apply parser_regular|exact Hd]. injection G as _ <-.
    apply set_of_list_facts; [apply R|]. exact (Q _ _ (IH (proj2 W) (proj2 R)) _ _ Hd E).
  - apply explicit_content_ok in E as (_ & _ & _ & E). exact (P _ _ (IH (proj2 W) R) _ _ _ Hd E).
  - apply implicit_content_ok in E as (_ & E). exact (IH (proj2 (proj2 W)) R _ _ _ _ Hd Hf E).
Qed.

Theorem C87_transcode_partial {A} (t : ty A) (i rem : bytes) (v : A) (n : N) :
  wf t -> rewritable t -> bytes_ok i ->
  ps_parse_ber (parser_of t) i = Ok (rem, v) \/ ps_parse_der (parser_of t) i = Ok (rem, v)
  \/ ber_same t /\ lg_from_ber (legacy_of t) i = Ok (rem, v) \/ ber_same t /\ from_sub t /\ lg_from_der (legacy_of t) i = Ok (rem, v) ->
  total_len (wr_der (writer_of t) v) = Definite n -> n < 2 ^ 24 ->
  exists enc, encodes (syntax_of t) v enc /\ blen enc = n /\ to_vec (wr_der (writer_of t) v) = Ok enc /\ reads_everywhere t enc v.
Proof.
  intros W R Hi E L Hn.
  assert (B : ps_parse_ber (parser_of t) i = Ok (rem, v)).
  { destruct E as [E|[E|[[S E]|(S & F & E)]]].
    - exact E.
    - apply C81_parse; assumption.
    - apply C45_ber; assumption.
    - apply C45_ber; [exact S|exact Hi|]. apply C81_from_partial; assumption. }
  apply typed_parse_ber in B as (a & r & B & _ & C). destruct (any_ber_fits _ _ _ Hi B) as [Hd Hf].
  destruct (C26_container_roundtrip t v n W (typed_valid t W R _ _ _ _ Hd Hf C) L Hn) as (enc & E1 & E2 & _ & E3 & E4). eauto 6.
Qed.
Print Assumptions C87_transcode_partial.

(** Missing: values that are read and, once written as DER, are not read as DER any more (an INTEGER kept as
    octets, unused bits, an empty BMPString, a wide character), or are read as another value (a time). *)
Theorem C87_transcode_refuted :
  let lost A (t : ty A) i i' := exists v,
    lg_from_ber (legacy_of t) i = Ok ([], v) /\ to_vec (wr_der (writer_of t) v) = Ok i'
    /\ forall rem, lg_from_der (legacy_of t) i' <> Ok (rem, v) in
  lost _ (TBase BInteger) [2; 2; 0; 5] [2; 2; 0; 5]
  /\ lost _ (TBase BBits) [3; 2; 1; 0xff] [3; 2; 1; 0xff]
  /\ lost _ (TBase BBmp) [0x3e; 0] [0x1e; 0]
  /\ lost _ (TBase BUniversal) [0x1c; 4; 0; 0; 0; 233] [0x1c; 8; 0; 0; 0; 233]
  /\ lost _ (TBase BUtcTime)
       ([0x17; 17] ++ [57; 57; 49; 50; 51; 49; 50; 51; 53; 57; 53; 57; 43; 48; 49; 48; 48])
       ([0x17; 13] ++ [57; 57; 49; 50; 51; 49; 50; 51; 53; 57; 53; 57; 90]).
Proof.
  cbv zeta. repeat split; eexists; (split; [vm_compute; reflexivity|]); (split; [vm_compute; reflexivity|]);
    intros rem; vm_compute; discriminate.
Qed.
Print Assumptions C87_transcode_refuted.

Example C87_case :
  let t := TBTreeSet Z.compare (TExplicit ContextSpecific 0 (TBase (BInt 4))) in
  let i := [0x31; 0x80; 0xa0; 0x80; 2; 3; 0; 0; 9; 0; 0; 0xa0; 0x81; 4; 2; 2; 0; 7; 0; 0] in
  wf t /\ rewritable t
  /\ ps_parse_ber (parser_of t) i = Ok ([], [7; 9]%Z)
  /\ total_len (wr_der (writer_of t) [7; 9]%Z) = Definite 12
  /\ to_vec (wr_der (writer_of t) [7; 9]%Z) = Ok [0x31; 10; 0xa0; 3; 2; 1; 7; 0xa0; 3; 2; 1; 9].
Proof.
  cbv zeta. split.
  { split; [intros a b; rewrite Z.compare_antisym; reflexivity|cbn; lia]. }
  split.
  { split; [|exact I]. split; [intros a b; rewrite Z.compare_antisym; reflexivity|].
    split; [intros a b c; rewrite !Z.compare_lt_iff; lia|]. intros a b c E. apply Z.compare_eq in E. subst. reflexivity. }
  repeat split; vm_compute; reflexivity.
Qed.
