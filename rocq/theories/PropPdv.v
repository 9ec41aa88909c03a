(** Properties of EMBEDDED PDV. *)
From Verif Require Import Base MHeader MEncode SHeader PArith PHeader PEncode MBer SBer PBer PIter PCodec.
From Verif Require Import MInt SInt PInt MSeg SSeg MOid MText SText PText.
From Verif Require Import MCont SCont PCont SBase PBase PTypes PropCont PropTag PropItems MPdv.

(** ** Specification

    X.680 36.5 under AUTOMATIC TAGS.  [identification] is a CHOICE, so its [0] is explicit; every other tag is
    implicit.  [std_identification x e]: [e] is an encoding of the alternative [x]. *)
Notation ctx := ContextSpecific (only parsing).

Inductive std_identification : pdv_identification -> bytes -> Prop :=
| std_syntaxes a b d r e : starts_with_ber_object ctx true 0 d e [] ->
    starts_with_object ctx false 0 a d r -> starts_with_object ctx false 1 b r [] ->
    std_identification (PdvSyntaxes (mk_oid a false) (mk_oid b false)) e
| std_syntax a e : starts_with_object ctx false 1 a e [] -> std_identification (PdvSyntax (mk_oid a false)) e
| std_context_id n e : starts_with_object ctx false 2 n e [] -> std_identification (PdvPresentationContextId n) e
| std_negotiation n b d r e : starts_with_ber_object ctx true 3 d e [] ->
    starts_with_object ctx false 0 n d r -> starts_with_object ctx false 1 b r [] ->
    std_identification (PdvContextNegotiation n (mk_oid b false)) e
| std_transfer a e : starts_with_object ctx false 4 a e [] -> std_identification (PdvTransferSyntax (mk_oid a false)) e
| std_fixed e : starts_with_object ctx false 5 [] e [] -> std_identification PdvFixed e.

(** What may follow: [1] the descriptor, ASCII text; [2] the value. *)
Definition std_descriptor (o : option (list N)) (i rem : bytes) : Prop :=
  match o with
  | None => i = rem
  | Some s => Forall (fun x => x < 128) s /\ starts_with_object ctx false 1 s i rem
  end.
Definition std_pdv (v : embedded_pdv) (i rem : bytes) : Prop :=
  exists d e r1 r2, starts_with_ber_object Universal true 11 d i rem
    /\ starts_with_ber_object ctx true 0 e d r1 /\ std_identification (pdv_identification_of v) e
    /\ std_descriptor (pdv_descriptor v) r1 r2 /\ starts_with_object ctx false 2 (pdv_value v) r2 [].

(** ** Reading *)

Lemma tagged0_ok {T} n (p : codec T) i rem v :
  tagged0 n p i = Ok (rem, v) <->
  exists a r, parse_ber_any i = Ok (rem, a) /\ h_tag (any_header a) = n /\ h_class (any_header a) = ContextSpecific
              /\ ber_content p (any_header a) (any_data a) = Ok (r, v).
Proof.
  unfold tagged0, implicit_parser. rewrite default_parse_ber_ok. split.
  - intros (a & r & E & A & C). apply is_tag_iff in A. unfold implicit_content in C. apply bind_ok in C as ([] & C1 & C).
    apply check_class_ok in C1. exists a, r. auto.
  - intros (a & r & E & A & C1 & C). exists a, r. split; [exact E|]. split; [apply is_tag_iff; exact A|].
    unfold implicit_content. apply check_class_ok in C1. rewrite C1. exact C.
Qed.

Lemma prim_object c t d i rem : starts_with_ber_object c false t d i rem <-> starts_with_object c false t d i rem.
Proof.
  split; [|apply object_is_ber]. intros (u & l & idb & lenb & bs & HR & Hu & -> & Hc & ->).
  destruct l as [n|].
  - inversion Hc; subst. exists u, idb, lenb. cbn [content_of]. auto.
  - destruct HR as [(_ & _ & H) _]. discriminate (H eq_refl).
Qed.

(** An object determines what is read. *)
Lemma object_unique c k t d c' k' t' d' i rem rem' :
  bytes_ok i -> starts_with_ber_object c k t d i rem -> starts_with_ber_object c' k' t' d' i rem' ->
  c = c' /\ k = k' /\ t = t' /\ d = d' /\ rem = rem'.
Proof.
  intros Hi O O'. destruct (ber_object_any _ _ _ _ _ _ Hi O) as (h & E & <- & <- & <-).
  destruct (ber_object_any _ _ _ _ _ _ Hi O') as (h' & E' & <- & <- & <-). rewrite E in E'. injection E' as <- <- <-. auto.
Qed.

Lemma object_octets c k t d i rem : bytes_ok i -> starts_with_ber_object c k t d i rem -> bytes_ok d /\ bytes_ok rem.
Proof. intros Hi O. destruct (ber_object_any _ _ _ _ _ _ Hi O) as (h & E & _). apply (any_ber_object _ _ _ Hi E). Qed.

Lemma tagged0_oid n i rem o :
  bytes_ok i -> (tagged0 n oid_codec i = Ok (rem, o) <->
  exists a, o = mk_oid a false /\ a <> [] /\ starts_with_object ContextSpecific false n a i rem).
Proof.
  intros Hi. rewrite tagged0_ok. split.
  - intros (a & r & E & <- & Cl & C). destruct (any_ber_object _ _ _ Hi E) as (O & _). rewrite Cl in O.
    cbn [oid_codec ber_content] in C. unfold oid_ber_content in C. apply bind_ok in C as ([] & K & C). apply assert_primitive_ok in K.
    rewrite K in O. apply prim_object in O. destruct (any_data a) as [|x d] eqn:Ed; [discriminate|]. injection C as _ <-.
    exists (x :: d). split; [reflexivity|]. split; [discriminate|exact O].
  - intros (d & -> & Hd & O). apply object_is_ber in O. destruct (ber_object_any _ _ _ _ _ _ Hi O) as (h & E & Cl & K & Ta).
    exists (mk_any h d), []. split; [exact E|]. split; [exact Ta|]. split; [exact Cl|]. cbn [any_header any_data oid_codec ber_content].
    unfold oid_ber_content. apply assert_primitive_ok in K. rewrite K. cbn [bind]. destruct d; [congruence|reflexivity].
Qed.

Lemma tagged0_slice n i rem v :
  bytes_ok i -> (tagged0 n slice_codec i = Ok (rem, v) <-> starts_with_object ContextSpecific false n v i rem).
Proof.
  intros Hi. rewrite tagged0_ok. split.
  - intros (a & r & E & <- & Cl & C). destruct (any_ber_object _ _ _ Hi E) as (O & _). rewrite Cl in O.
    cbn [slice_codec ber_content] in C. unfold slice_ber_content in C. destruct (h_constructed (any_header a)); [discriminate|].
    injection C as _ <-. apply prim_object. exact O.
  - intros O. apply object_is_ber in O. destruct (ber_object_any _ _ _ _ _ _ Hi O) as (h & E & Cl & K & Ta).
    exists (mk_any h v), []. split; [exact E|]. split; [exact Ta|]. split; [exact Cl|]. cbn [any_header any_data slice_codec ber_content].
    unfold slice_ber_content. rewrite K. reflexivity.
Qed.

(** [TaggedImplicit<Any, _, 0>] hands over the header with number 0: the tag of what is inside is never seen. *)
Lemma tagged0_any n i rem a :
  bytes_ok i -> tagged0 n any_codec i = Ok (rem, a) ->
  h_tag (any_header a) = n /\ exists k, starts_with_ber_object ContextSpecific k n (any_data a) i rem.
Proof.
  intros Hi E. apply tagged0_ok in E as (a0 & r & E & Ta & Cl & C). destruct (any_ber_object _ _ _ Hi E) as (O & Hd & _).
  rewrite Cl, Ta in O. cbn [any_codec ber_content] in C. unfold any_ber_content in C.
  apply bind_ok in C as ([r1 d1] & C1 & C). injection C as <- <-. cbn [any_header any_data]. split; [exact Ta|].
  exists (h_constructed (any_header a0)). replace d1 with (any_data a0); [exact O|].
  apply parse_ber_any_ok in E as (c & k & t & l & idb & lenb & bs & HR & -> & Hc & ->); [|exact Hi].
  cbn [any_header any_data h_length hdr] in *. destruct l as [m|].
  - inversion Hc as [x y z Hb|]; subst. cbn [content_of] in *. rewrite take_all in C1 by reflexivity. congruence.
  - rewrite take_all in C1 by reflexivity. congruence.
Qed.

(** The descriptor as read: nothing when the next tag number is not 1; otherwise an object of definite length. *)
Definition read_descriptor (o : option (list N)) (i rem : bytes) : Prop :=
  match o with
  | None => i = rem /\ (i = [] \/ exists t l, starts_with_tag t l i /\ t <> 1)
  | Some s => exists l, starts_with_tag 1 l i /\ l <> Indefinite /\ tagged0 1 (string_codec ObjDescriptor) i = Ok (rem, s)
  end.

(** What is read: an object [0], of any form, holding [0] and [1] object identifiers and anything after; a
    descriptor; [2] octets; anything after. *)
Definition read_pdv (i : bytes) (v : embedded_pdv) : Prop :=
  exists k e r1 a b r2 r3 r4 r5, starts_with_ber_object ContextSpecific k 0 e i r1
    /\ starts_with_object ContextSpecific false 0 a e r2 /\ a <> []
    /\ starts_with_object ContextSpecific false 1 b r2 r3 /\ b <> []
    /\ pdv_identification_of v = PdvSyntaxes (mk_oid a false) (mk_oid b false)
    /\ read_descriptor (pdv_descriptor v) r1 r4
    /\ starts_with_object ContextSpecific false 2 (pdv_value v) r4 r5.

Lemma descriptor_ok i rem o :
  bytes_ok i ->
  (ps_parse_ber (option_parser (implicit_parser ContextSpecific 1 (codec_parser (string_codec ObjDescriptor)))) i = Ok (rem, o)
   <-> read_descriptor o i rem).
Proof.
  intros Hi. set (P := implicit_parser ContextSpecific 1 (codec_parser (string_codec ObjDescriptor))).
  assert (RP : regular P) by (split; reflexivity).
  pose proof (C28_optional_partial P (mk_legacy 0 (fun _ => Panic) (fun _ => Panic) (fun _ => Panic) (fun _ => Panic)) i RP Hi) as (H0 & H1 & H2). cbv zeta in H0, H1, H2.
  destruct i as [|b i'].
  { specialize (H0 eq_refl). pose proof (Forall_inv (Forall_inv_tail (Forall_inv_tail H0))) as H3. cbv beta in H3. rewrite H3. split.
    - intros E. injection E as <- <-. cbn. auto.
    - destruct o as [s|]; [intros (l & (c & k & u & idb & lenb & r & HR & _ & E) & _)|intros [<- _]; reflexivity].
      symmetry in E. apply app_eq_nil in E as [E _]. subst idb. destruct HR as [(HI & _) _]. inversion HI. }
  set (i := b :: i') in *.
  split.
  - intros E.
    assert (HS : exists t l, starts_with_tag t l i).
    { cbn [option_parser ps_parse_ber] in E. unfold option_parse in E. change (blen i =? 0) with false in E.
      apply bind_ok in E as ([r h] & E & _). apply parse_header_ok in E as (c & k & u & l & idb & lenb & H & W & Ei & _); [|exact Hi].
      exists (u mod 2 ^ 32), l, c, k, u, idb, lenb, r. split; [split; assumption|]. auto. }
    destruct HS as (t & l & St). destruct (ps_accept P t) eqn:A.
    + assert (t = 1) by (apply is_tag_iff; exact A). subst t.
      destruct l as [n|]; [|exfalso; exact (C28_indefinite_never P i 1 Hi St A _ E)].
      destruct (H1 _ _ St A) as (_ & _ & _ & _ & _ & H). rewrite H in E by discriminate.
      destruct (ps_parse_ber P i) as [[r s]| | |] eqn:EP; try discriminate. injection E as <- <-.
      exists (Definite n). split; [exact St|]. split; [discriminate|exact EP].
    + destruct (H2 _ _ St A) as (H & _). pose proof (Forall_inv (Forall_inv_tail (Forall_inv_tail H))) as H3. cbv beta in H3.
      rewrite H3 in E. injection E as <- <-. split; [reflexivity|]. right. exists t, l. split; [exact St|].
      intros ->. discriminate A.
  - destruct o as [s|].
    + intros (l & St & Hl & E). assert (A : ps_accept P 1 = true) by reflexivity. destruct (H1 _ _ St A) as (_ & _ & _ & _ & _ & H).
      rewrite H by exact Hl. change (ps_parse_ber P i) with (tagged0 1 (string_codec ObjDescriptor) i). rewrite E. reflexivity.
    + intros [<- [H|(t & l & St & Ht)]]; [discriminate|]. destruct (ps_accept P t) eqn:A; [apply is_tag_iff in A; congruence|].
      destruct (H2 _ _ St A) as (H & _). pose proof (Forall_inv (Forall_inv_tail (Forall_inv_tail H))) as H3. cbv beta in H3.
      exact H3.
Qed.

Lemma pdv_content_ok h i v : bytes_ok i -> ((exists r, pdv_ber_content h i = Ok (r, v)) <-> read_pdv i v).
Proof.
  intros Hi. unfold pdv_ber_content. split.
  - intros (r & E). apply bind_ok in E as ([r1 a] & E1 & E). apply bind_ok in E as (x & E2 & E). apply bind_ok in E as ([r4 o] & E3 & E).
    apply bind_ok in E as ([r5 y] & E4 & E). injection E as <- <-.
    destruct (tagged0_any _ _ _ _ Hi E1) as (Ta & k & O). destruct (object_octets _ _ _ _ _ _ Hi O) as [Hd Hr].
    unfold pdv_identify in E2. rewrite Ta in E2. cbn [N.eqb] in E2.
    apply bind_ok in E2 as ([r2 oa] & F1 & E2). apply bind_ok in E2 as ([r3 ob] & F2 & E2). injection E2 as <-.
    apply tagged0_oid in F1 as (da & -> & Na & O1); [|exact Hd].
    assert (Hr2 : bytes_ok r2) by (apply (object_octets _ _ _ _ _ _ Hd (object_is_ber _ _ _ _ _ _ O1))).
    apply tagged0_oid in F2 as (db & -> & Nb & O2); [|exact Hr2].
    apply descriptor_ok in E3; [|exact Hr].
    assert (Hr4 : bytes_ok r4).
    { destruct o as [s|]; [|destruct E3 as [<- _]; exact Hr]. destruct E3 as (l & _ & _ & E3).
      apply tagged0_ok in E3 as (a3 & r' & E3 & _). apply (any_ber_object _ _ _ Hr E3). }
    apply tagged0_slice in E4; [|exact Hr4].
    exists k, (any_data a), r1, da, db, r2, r3, r4, r5. repeat (split; [assumption|]). split; [reflexivity|]. split; assumption.
  - intros (k & e & r1 & da & db & r2 & r3 & r4 & r5 & O & O1 & Na & O2 & Nb & Ev & D & O4).
    destruct (object_octets _ _ _ _ _ _ Hi O) as [Hd Hr].
    assert (Hr2 : bytes_ok r2) by (apply (object_octets _ _ _ _ _ _ Hd (object_is_ber _ _ _ _ _ _ O1))).
    assert (Hr4 : bytes_ok r4).
    { destruct (pdv_descriptor v) as [s|]; [|destruct D as [<- _]; exact Hr]. destruct D as (l & _ & _ & E3).
      apply tagged0_ok in E3 as (a3 & r' & E3 & _). apply (any_ber_object _ _ _ Hr E3). }
    assert (E1 : exists a, tagged0 0 any_codec i = Ok (r1, a) /\ h_tag (any_header a) = 0 /\ any_data a = e).
    { destruct (ber_object_any _ _ _ _ _ _ Hi O) as (h' & E & Cl & K & Ta).
      assert (Hx : exists r a, any_ber_content h' e = Ok (r, a) /\ a = mk_any h' e).
      { pose proof E as E'. rewrite <- any_parse_ber_eq in E' by exact Hi. unfold any_parse_ber, parse_ber in E'.
        apply bind_ok in E' as ([q1 q2] & Q & E'). cbn [any_codec accept_tag] in E'. apply bind_ok in E' as ([q3 q4] & Q3 & E').
        apply bind_ok in E' as ([q5 q6] & Q5 & E'). injection E' as -> ->. cbn [any_codec ber_content] in Q5.
        unfold any_ber_content in Q5. apply bind_ok in Q5 as ([q7 q8] & Q7 & Q8). injection Q8 as -> -> ->.
        apply parse_ber_any_ok in E as (c & k' & t & l & idb & lenb & bs & HR & -> & Hc & Ea); [|exact Hi]. injection Ea as -> ->.
        unfold any_ber_content. cbn [h_length hdr]. destruct l as [m|].
        - inversion Hc as [x y z Hb|]; subst. cbn [content_of]. rewrite take_all. cbn [bind]. eauto.
        - rewrite take_all. cbn [bind]. eauto. }
      destruct Hx as (r & a & Ea & ->). exists (mk_any h' e). split; [|auto]. apply tagged0_ok. exists (mk_any h' e), r. auto. }
    destruct E1 as (a & E1 & Ta & Ed). exists r5. rewrite E1. cbn [bind]. unfold pdv_identify. rewrite Ta, Ed. cbn [N.eqb].
    rewrite (proj2 (tagged0_oid 0 e r2 (mk_oid da false) Hd)) by eauto. cbn [bind].
    rewrite (proj2 (tagged0_oid 1 r2 r3 (mk_oid db false) Hr2)) by eauto. cbn [bind].
    rewrite (proj2 (descriptor_ok r1 r4 (pdv_descriptor v) Hr)) by exact D. cbn [bind].
    rewrite (proj2 (tagged0_slice 2 r4 r5 (pdv_value v) Hr4)) by exact O4. cbn [bind]. rewrite <- Ev. destruct v. reflexivity.
Qed.

(** ** C64 *)

(** The four readers accept exactly the following. *)
Theorem C64_accept_partial (i rem : bytes) (v : embedded_pdv) :
  bytes_ok i ->
  let ber := exists c k d, starts_with_ber_object c k 11 d i rem /\ read_pdv d v in
  let der (form : bool -> Prop) := exists c k d, form k /\ starts_with_object c k 11 d i rem /\ read_pdv d v in
  (parse_ber pdv_codec i = Ok (rem, v) <-> ber)
  /\ (from_ber pdv_codec i = Ok (rem, v) <-> ber)
  /\ (parse_der pdv_codec i = Ok (rem, v) <-> der (fun _ => True))
  /\ (from_der pdv_codec i = Ok (rem, v) <-> der (fun k => k = true)).
Proof.
  intros Hi ber der.
  assert (B : (exists a r, parse_ber_any i = Ok (rem, a) /\ is_tag TagEmbeddedPdv (h_tag (any_header a)) = true
                           /\ pdv_ber_content (any_header a) (any_data a) = Ok (r, v)) <-> ber).
  { split.
    - intros (a & r & E & A & C). destruct (any_ber_object _ _ _ Hi E) as (O & Hd & _). apply is_tag_iff in A. rewrite A in O.
      exists (h_class (any_header a)), (h_constructed (any_header a)), (any_data a). split; [exact O|]. eapply pdv_content_ok; eauto.
    - intros (c & k & d & O & R). destruct (ber_object_any _ _ _ _ _ _ Hi O) as (h & E & _ & _ & Ta).
      destruct (object_octets _ _ _ _ _ _ Hi O) as [Hd _]. destruct (proj2 (pdv_content_ok h d v Hd) R) as (r & C).
      exists (mk_any h d), r. split; [exact E|]. split; [apply is_tag_iff; exact Ta|exact C]. }
  assert (D : forall form : bool -> Prop, (exists a r, form (h_constructed (any_header a)) /\ parse_der_any i = Ok (rem, a) /\ is_tag TagEmbeddedPdv (h_tag (any_header a)) = true
                           /\ pdv_ber_content (any_header a) (any_data a) = Ok (r, v)) <-> der form).
  { intros form. split.
    - intros (a & r & F & E & A & C). destruct (any_der_object _ _ _ Hi E) as (O & Hd & _). apply is_tag_iff in A. rewrite A in O.
      exists (h_class (any_header a)), (h_constructed (any_header a)), (any_data a). split; [exact F|]. split; [exact O|]. eapply pdv_content_ok; eauto.
    - intros (c & k & d & F & O & R). destruct (der_object_any _ _ _ _ _ _ Hi O) as (h & E & _ & K & Ta).
      destruct (object_octets _ _ _ _ _ _ Hi (object_is_ber _ _ _ _ _ _ O)) as [Hd _]. destruct (proj2 (pdv_content_ok h d v Hd) R) as (r & C).
      exists (mk_any h d), r. cbn [any_header any_data]. rewrite K. split; [exact F|]. split; [exact E|]. split; [apply is_tag_iff; exact Ta|exact C]. }
  assert (TF : forall a, try_from_any pdv_codec a = Ok v <-> exists r, is_tag TagEmbeddedPdv (h_tag (any_header a)) = true
                           /\ pdv_ber_content (any_header a) (any_data a) = Ok (r, v)).
  { intros a. cbn [pdv_codec try_from_any]. unfold default_try_from. split.
    - destruct (is_tag TagEmbeddedPdv (h_tag (any_header a))); [|discriminate]. intros E. apply bind_ok in E as ([r x] & E & F). injection F as ->.
      destruct (pdv_ber_content (any_header a) (any_data a)) as [[r' x']| | |]; cbn [close] in E; try discriminate. injection E as -> ->. eauto.
    - intros (r & -> & ->). reflexivity. }
  split; [|split; [|split]].
  - rewrite <- B. apply (default_parse_ber_ok (is_tag TagEmbeddedPdv) pdv_ber_content pdv_der_content i rem v).
  - rewrite <- B. unfold from_ber. split.
    + intros E. apply bind_ok in E as ([r a] & E & F). apply bind_ok in F as (x & F & G). injection G as -> ->.
      apply TF in F as (r' & A & C). eauto.
    + intros (a & r & E & A & C). rewrite E. cbn [bind]. rewrite (proj2 (TF a)) by eauto. reflexivity.
  - rewrite <- D. rewrite (default_parse_der_ok (is_tag TagEmbeddedPdv) pdv_ber_content pdv_der_content i rem v Hi). split.
    + intros (a & r & E & A & C). exists a, r. auto.
    + intros (a & r & _ & E & A & C). exists a, r. auto.
  - rewrite <- D. unfold from_der. split.
    + intros E. apply bind_ok in E as ([r a] & E & F). apply bind_ok in F as ([] & K & F). apply bind_ok in F as (x & F & G). injection G as -> ->.
      apply TF in F as (r' & A & C). cbn [pdv_codec check_constraints] in K. unfold pdv_check in K. apply bind_ok in K as (u & _ & K).
      apply assert_constructed_ok in K. eauto 7.
    + intros (a & r & K & E & A & C). rewrite E. cbn [bind pdv_codec check_constraints]. unfold pdv_check.
      unfold parse_der_any in E. apply bind_ok in E as ([i2 h] & _ & E). apply bind_ok in E as (u & E1 & E).
      apply bind_ok in E as ([i3 d] & _ & E). injection E as <- <-. cbn [any_header] in *. rewrite E1. cbn [bind].
      apply assert_constructed_ok in K. rewrite K. cbn [bind]. change (default_try_from (is_tag TagEmbeddedPdv) pdv_ber_content) with (try_from_any pdv_codec).
      rewrite (proj2 (TF (mk_any h d))) by eauto. reflexivity.
Qed.
Print Assumptions C64_accept_partial.

Lemma std_identification_ber x e : std_identification x e ->
  exists k t d, starts_with_ber_object ContextSpecific k t d e [] /\ (k = true \/ t <> 0).
Proof.
  intros H. destruct H.
  - exists true, 0, d. auto.
  - exists false, 1, a. split; [apply object_is_ber; assumption|right; discriminate].
  - exists false, 2, n. split; [apply object_is_ber; assumption|right; discriminate].
  - exists true, 3, d. auto.
  - exists false, 4, a. split; [apply object_is_ber; assumption|right; discriminate].
  - exists false, 5, []. split; [apply object_is_ber; assumption|right; discriminate].
Qed.

(** No encoding of the standard, of any alternative, is read by any of them. *)
Theorem C64_standard_rejected (v : embedded_pdv) (i rem : bytes) :
  bytes_ok i -> std_pdv v i rem ->
  forall x, parse_ber pdv_codec i <> Ok x /\ from_ber pdv_codec i <> Ok x /\ parse_der pdv_codec i <> Ok x /\ from_der pdv_codec i <> Ok x.
Proof.
  intros Hi (d & e & r1 & r2 & O & O1 & I & _ & _) [rem' w].
  destruct (object_octets _ _ _ _ _ _ Hi O) as [Hd _]. destruct (object_octets _ _ _ _ _ _ Hd O1) as [He _].
  destruct (C64_accept_partial i rem' w Hi) as (A1 & A2 & A3 & A4). cbv zeta in A1, A2, A3, A4.
  assert (N : ~ exists c k d, starts_with_ber_object c k 11 d i rem' /\ read_pdv d w).
  { intros (c & k & d' & O' & R). destruct (object_unique _ _ _ _ _ _ _ _ _ _ _ Hi O O') as (_ & _ & _ & <- & _).
    destruct R as (k0 & e' & q1 & a & b & q2 & q3 & q4 & q5 & P1 & P2 & _).
    destruct (object_unique _ _ _ _ _ _ _ _ _ _ _ Hd O1 P1) as (_ & _ & _ & <- & _).
    destruct (std_identification_ber _ _ I) as (k1 & t1 & d1 & Q & H).
    destruct (object_unique _ _ _ _ _ _ _ _ _ _ _ He Q (object_is_ber _ _ _ _ _ _ P2)) as (_ & -> & -> & _). destruct H; congruence. }
  rewrite A1, A2, A3, A4. split; [exact N|]. split; [exact N|].
  split; intros (c & k & d' & _ & O' & R); apply N; exists c, k, d'; split; [apply object_is_ber, O'|exact R|apply object_is_ber, O'|exact R].
Qed.
Print Assumptions C64_standard_rejected.

Theorem C64_standard_refuted :
  exists v i, bytes_ok i /\ std_pdv v i [] /\ parse_ber pdv_codec i = Err EConstructUnexpected.
Proof.
  exists (mk_pdv (PdvSyntaxes (mk_oid [42] false) (mk_oid [43] false)) None [9]),
    [0x2b; 13; 0xa0; 8; 0xa0; 6; 0x80; 1; 42; 0x81; 1; 43; 0x82; 1; 9].
  split; [repeat constructor; lia|]. split; [|vm_compute; reflexivity].
  assert (H : forall (k : bool) t n, t < 31 -> n < 128 -> readable_header ContextSpecific k t (Definite n) [ident_first ContextSpecific k t] [n]).
  { intros k t n Ht Hn. split; [split; [apply id_low; exact Ht|split; [apply lo_short; exact Hn|discriminate]]|].
    split; [vm_compute; discriminate|intros m E; injection E as <-; lia]. }
  assert (O : forall k t d rem, t < 31 -> blen d < 128 -> starts_with_object ContextSpecific k t d ([ident_first ContextSpecific k t] ++ [blen d] ++ d ++ rem) rem).
  { intros k t d rem Ht Hn. exists t, [ident_first ContextSpecific k t], [blen d]. split; [apply H; assumption|]. split; [apply N.mod_small; lia|reflexivity]. }
  exists [0xa0; 8; 0xa0; 6; 0x80; 1; 42; 0x81; 1; 43; 0x82; 1; 9], [0xa0; 6; 0x80; 1; 42; 0x81; 1; 43], [0x82; 1; 9], [0x82; 1; 9].
  cbn [pdv_identification_of pdv_descriptor pdv_value]. split; [|split; [|split; [|split]]].
  - apply object_is_ber. exists 11, [0x2b], [13]. split; [|split; reflexivity].
    split; [split; [apply (id_low Universal true 11); lia|split; [apply (lo_short 13); lia|discriminate]]|].
    split; [vm_compute; discriminate|intros m E; injection E as <-; vm_compute; reflexivity].
  - apply object_is_ber. apply (O true 0 [0xa0; 6; 0x80; 1; 42; 0x81; 1; 43] [0x82; 1; 9]); [lia|vm_compute; reflexivity].
  - apply std_syntaxes with (d := [0x80; 1; 42; 0x81; 1; 43]) (r := [0x81; 1; 43]).
    + apply object_is_ber. apply (O true 0 [0x80; 1; 42; 0x81; 1; 43] []); [lia|vm_compute; reflexivity].
    + apply (O false 0 [42] [0x81; 1; 43]); [lia|vm_compute; reflexivity].
    + apply (O false 1 [43] []); [lia|vm_compute; reflexivity].
  - reflexivity.
  - apply (O false 2 [9] []); [lia|vm_compute; reflexivity].
Qed.
Print Assumptions C64_standard_refuted.

(** What is read: the two identifiers directly in [0], with octets left over that are ignored. *)
Example C64_case :
  let v := mk_pdv (PdvSyntaxes (mk_oid [42] false) (mk_oid [43] false)) (Some [104; 105]) [9] in
  let i := [0x2b; 18; 0xa0; 7; 0x80; 1; 42; 0x81; 1; 43; 7; 0x81; 2; 104; 105; 0x82; 1; 9; 5; 0] in
  parse_ber pdv_codec i = Ok ([], v) /\ from_ber pdv_codec i = Ok ([], v)
  /\ parse_der pdv_codec i = Ok ([], v) /\ from_der pdv_codec i = Ok ([], v).
Proof. cbv zeta. repeat split; vm_compute; reflexivity. Qed.
