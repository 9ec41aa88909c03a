(** C96: fields of derived structs read by a custom parser (attribute [asn1(parse = "...")]). *)
From Verif Require Import Base MHeader MEncode SHeader PArith PHeader PEncode MBer SBer PBer PIter PCodec PropBer.
From Verif Require Import MInt MCont SCont PCont SBase PBase PTypes PropCont PropTag PropItems PSafe PropSafe.
From Verif Require Import MDerive SDerive PDerive PropDerive MParse.

(** ** Declarations *)

(** A struct in which a field is declared without the attribute ([QField], one field with its attributes), or with it ([QCustom]:
    the parser, given the header, the contents of the struct, and the octets left).  What comes after may use the value read. *)
Inductive qfields : Type -> Type :=
| QNil : qfields unit
| QField {A B} (d : dfields (A * unit)) (rest : A -> qfields B) : qfields (A * B)
| QCustom {A B} (f : header -> bytes -> bytes -> res (bytes * A)) (rest : A -> qfields B) : qfields (A * B).

Definition lone (der : bool) {A} (d : dfields (A * unit)) (i : bytes) : res (bytes * A) :=
  let* (r, v) := fields_of der d i in Ok (r, fst v).
Fixpoint pfields_of {A} (q : qfields A) : pfields A :=
  match q with
  | QNil => PNil
  | QField d rest => PDeclared (lone false d) (lone true d) (fun x => pfields_of (rest x))
  | QCustom f rest => PCustom f (fun x => pfields_of (rest x))
  end.
Definition qparser {A} (set : bool) (q : qfields A) : parser A := custom_parser (struct_tag set) (pfields_of q).

(** The octets given are octets. *)
Fixpoint qwf {A} (q : qfields A) : Prop :=
  match q with
  | QNil => True
  | QField d rest => fields_wf d /\ forall x, qwf (rest x)
  | QCustom f rest => (forall h o i r x, bytes_ok o -> bytes_ok i -> f h o i = Ok (r, x) -> bytes_ok r) /\ forall x, qwf (rest x)
  end.

(** ** Specification *)

(** The fields of [v], in the order of the declaration: each from the octets the one before left. *)
Fixpoint reads_custom (der : bool) {A} (q : qfields A) (h : header) (content : bytes) : A -> bytes -> bytes -> Prop :=
  match q with
  | QNil => fun _ i rem => rem = i
  | QField d rest => fun v i rem => exists m,
      reads_fields der d (fst v, tt) i m /\ reads_custom der (rest (fst v)) h content (snd v) m rem
  | QCustom f rest => fun v i rem => exists m,
      f h content i = Ok (m, fst v) /\ reads_custom der (rest (fst v)) h content (snd v) m rem
  end.

(** The header a closure sees. *)
Definition seen_header (c : class) (tag : N) (l : blength) (idb lenb : bytes) : header :=
  mk_header c true tag l (Some idb) (Some (idb ++ lenb)).

(** ** Proofs *)

Lemma lone_reads der {A} (d : dfields (A * unit)) i m x :
  fields_wf d -> bytes_ok i -> (lone der d i = Ok (m, x) <-> reads_fields der d (x, tt) i m).
Proof.
  intros Hd Hi. rewrite <- (fields_reads d Hd der _ _ _ Hi). unfold lone. split.
  - intros E. apply bind_ok in E as ([r [y []]] & E & F). cbn [fst] in F. injection F as -> ->. exact E.
  - intros ->. reflexivity.
Qed.

Lemma fields_of_safe der {A} (d : dfields A) : safe (fields_of der d).
Proof. destruct (proj1 (proj2 dty_all_steady) A d) as (F1 & F2 & _). destruct der; assumption. Qed.

Lemma lone_safe der {A} (d : dfields (A * unit)) : safe (lone der d).
Proof.
  intros i Hi. destruct (fields_of_safe der d i Hi) as [S1 S2]. unfold lone.
  destruct (fields_of der d i) as [[r v]|e|n|]; cbn [bind sane] in *; try (split; [exact S1|discriminate]).
  split; [exact I|]. intros r0 a E. injection E as <- _. exact (S2 _ _ eq_refl).
Qed.

Lemma lone_rest der {A} (d : dfields (A * unit)) i m x : bytes_ok i -> lone der d i = Ok (m, x) -> bytes_ok m.
Proof.
  intros Hi E. destruct (proj2 (lone_safe der d i Hi) _ _ E) as (pre & ->). apply bytes_ok_app in Hi. tauto.
Qed.

Lemma pread_reads der {A} (q : qfields A) : qwf q -> forall h o i v rem, bytes_ok o -> bytes_ok i ->
  (pread der (pfields_of q) h o i = Ok (rem, v) <-> reads_custom der q h o v i rem).
Proof.
  induction q as [|A B d rest IH|A B f rest IH]; cbn [qwf pfields_of pread reads_custom]; intros Hwf h o i v rem Ho Hi.
  - destruct v. split; [intros E; injection E as <-; reflexivity|intros ->; reflexivity].
  - destruct Hwf as [Hd Hr].
    replace (if der then lone true d else lone false d) with (lone der d) by (destruct der; reflexivity).
    destruct v as [x y]. cbn [fst snd]. split.
    + intros E. apply bind_ok in E as ([m x'] & E & F). apply bind_ok in F as ([r y'] & F & G). injection G as -> -> ->.
      exists m. split; [apply lone_reads; assumption|]. apply IH; [apply Hr|exact Ho|exact (lone_rest _ _ _ _ _ Hi E)|exact F].
    + intros (m & E & F). apply lone_reads in E; try assumption. pose proof (lone_rest _ _ _ _ _ Hi E) as Hm.
      apply IH in F; [|apply Hr|exact Ho|exact Hm]. rewrite E. cbn [bind]. rewrite F. reflexivity.
  - destruct Hwf as [Hf Hr]. destruct v as [x y]. cbn [fst snd]. split.
    + intros E. apply bind_ok in E as ([m x'] & E & F). apply bind_ok in F as ([r y'] & F & G). injection G as -> -> ->.
      exists m. split; [exact E|]. apply IH; [apply Hr|exact Ho|exact (Hf _ _ _ _ _ Ho Hi E)|exact F].
    + intros (m & E & F). pose proof (Hf _ _ _ _ _ Ho Hi E) as Hm.
      apply IH in F; [|apply Hr|exact Ho|exact Hm]. rewrite E. cbn [bind]. rewrite F. reflexivity.
Qed.

Lemma custom_content_ok der {A} (ps : pfields A) h d r v :
  custom_content der ps h d = Ok (r, v) <-> h_constructed h = true /\ pread der ps h d d = Ok (r, v).
Proof.
  unfold custom_content. rewrite <- assert_constructed_ok.
  destruct (assert_constructed h) as [[]| | |]; cbn [bind]; try (split; [discriminate|intros (E & _); discriminate]). tauto.
Qed.

(** Exactly what is read: a constructed object of any class with the number of SEQUENCE (or SET) whose contents start with the
    fields; a custom parser gets the octets the fields before it left, the header and the contents, and what it leaves is where
    the next field is read. *)
Theorem C96_accept {A} (set : bool) (q : qfields A) (i rem : bytes) (v : A) :
  qwf q -> bytes_ok i ->
  let P := qparser set q in let tag := if set then 17 else 16 in
  (ps_parse_ber P i = Ok (rem, v) <->
     exists c t l idb lenb bs r, readable_header c true t l idb lenb /\ t mod 2 ^ 32 = tag /\ i = idb ++ lenb ++ bs ++ rem
       /\ impl_contents 50 l bs
       /\ reads_custom false q (seen_header c tag l idb lenb) (content_of l bs) v (content_of l bs) r)
  /\ (ps_parse_der P i = Ok (rem, v) <->
     exists c t idb lenb content r, readable_header c true t (Definite (blen content)) idb lenb /\ t mod 2 ^ 32 = tag
       /\ i = idb ++ lenb ++ content ++ rem
       /\ reads_custom true q (seen_header c tag (Definite (blen content)) idb lenb) content v content r).
Proof.
  intros Hwf Hi P tag.
  assert (Et : forall n, is_tag (struct_tag set) n = true <-> n = tag).
  { intros n. rewrite is_tag_iff. unfold tag. destruct set; reflexivity. }
  unfold P, qparser, custom_parser. split.
  - rewrite default_parse_ber_ok. split.
    + intros (a & r & E & T & C). apply custom_content_ok in C as [K C]. apply Et in T.
      destruct (any_ber_object _ _ _ Hi E) as (_ & Hd & _). apply (pread_reads _ _ Hwf _ _ _ _ _ Hd Hd) in C.
      apply parse_ber_any_ok in E as (c & k & t & l & idb & lenb & bs & HR & Hb & Hc & ->); [|exact Hi].
      cbn [any_header any_data h_tag h_constructed] in *. rewrite K, T in *.
      exists c, t, l, idb, lenb, bs, r. repeat split; try assumption; apply HR.
    + intros (c & t & l & idb & lenb & bs & r & HR & T & Hb & Hc & C). exists (mk_any (seen_header c tag l idb lenb) (content_of l bs)), r.
      assert (E : parse_ber_any i = Ok (rem, mk_any (seen_header c tag l idb lenb) (content_of l bs))).
      { apply parse_ber_any_ok; [exact Hi|]. exists c, true, t, l, idb, lenb, bs. unfold seen_header. rewrite T. auto. }
      split; [exact E|]. split; [apply Et; reflexivity|]. apply custom_content_ok. split; [reflexivity|].
      destruct (any_ber_object _ _ _ Hi E) as (_ & Hd & _). apply (pread_reads _ _ Hwf _ _ _ _ _ Hd Hd). exact C.
  - rewrite default_parse_der_ok by exact Hi. split.
    + intros (a & r & E & T & C). apply custom_content_ok in C as [K C]. apply Et in T.
      destruct (any_der_object _ _ _ Hi E) as (_ & Hd & _). apply (pread_reads _ _ Hwf _ _ _ _ _ Hd Hd) in C.
      apply parse_der_any_ok in E as (c & k & t & n & idb & lenb & bs & HR & Hb & <- & ->); [|exact Hi].
      cbn [any_header any_data h_tag h_constructed] in *. rewrite K, T in *.
      exists c, t, idb, lenb, bs, r. repeat split; try assumption; apply HR.
    + intros (c & t & idb & lenb & d & r & HR & T & Hb & C). exists (mk_any (seen_header c tag (Definite (blen d)) idb lenb) d), r.
      assert (E : parse_der_any i = Ok (rem, mk_any (seen_header c tag (Definite (blen d)) idb lenb) d)).
      { apply parse_der_any_ok; [exact Hi|]. exists c, true, t, (blen d), idb, lenb, d. unfold seen_header. rewrite T. auto. }
      split; [exact E|]. split; [apply Et; reflexivity|]. apply custom_content_ok. split; [reflexivity|].
      destruct (any_der_object _ _ _ Hi E) as (_ & Hd & _). apply (pread_reads _ _ Hwf _ _ _ _ _ Hd Hd). exact C.
Qed.
Print Assumptions C96_accept.

(** ** Replacing generated readers by equal ones *)

(** One field in front of others. *)
Inductive first_field : forall {A B}, dfields (A * unit) -> dfields B -> dfields (A * B) -> Prop :=
| first_plain A B (t : dty A) (fs : dfields B) : first_field (FPlain t FNil) fs (FPlain t fs)
| first_option A B (t : dty A) (fs : dfields B) : first_field (FOption t FNil) fs (FOption t fs)
| first_default A B d (t : dty A) (fs : dfields B) : first_field (FDefault d t FNil) fs (FDefault d t fs)
| first_tagged A B g (t : dty A) (fs : dfields B) : first_field (FTagged g t FNil) fs (FTagged g t fs)
| first_tagged_option A B g (t : dty A) (fs : dfields B) : first_field (FTaggedOption g t FNil) fs (FTaggedOption g t fs)
| first_tagged_default A B g d (t : dty A) (fs : dfields B) : first_field (FTaggedDefault g d t FNil) fs (FTaggedDefault g d t fs).

(** [q] is the struct [fs] in which some fields have the attribute, with a parser that gives what the generated one gives. *)
Inductive overrides (der : bool) : forall {A}, dfields A -> qfields A -> Prop :=
| overrides_nil : overrides der FNil QNil
| overrides_kept A B (d : dfields (A * unit)) (fs : dfields B) (all : dfields (A * B)) rest :
    first_field d fs all -> (forall x, overrides der fs (rest x)) -> overrides der all (QField d rest)
| overrides_replaced A B (d : dfields (A * unit)) (fs : dfields B) (all : dfields (A * B)) f rest :
    first_field d fs all -> (forall h o i, bytes_ok i -> f h o i = let* (r, v) := fields_of der d i in Ok (r, fst v)) ->
    (forall x, overrides der fs (rest x)) -> overrides der all (QCustom f rest).

Lemma first_field_eq der {A B} (d : dfields (A * unit)) (fs : dfields B) all i :
  first_field d fs all ->
  fields_of der all i = (let* (r, x) := lone der d i in let* (r, y) := fields_of der fs r in Ok (r, (x, y))).
Proof.
  intros H. unfold lone. destruct H, der; cbn [fields_of ber_of der_of]; unfold field, no_field;
    match goal with |- (let* _ := ?p in _) = _ => destruct p as [[r x]| | |] end; reflexivity.
Qed.

Lemma overrides_eq der {A} (fs : dfields A) q : overrides der fs q -> forall h o i, bytes_ok i ->
  pread der (pfields_of q) h o i = fields_of der fs i.
Proof.
  induction 1 as [|A B d fs all rest F H IH|A B d fs all f rest F Ef H IH]; intros h o i Hi; cbn [pfields_of pread].
  - destruct der; reflexivity.
  - rewrite (first_field_eq der d fs all i F).
    replace (if der then lone true d else lone false d) with (lone der d) by (destruct der; reflexivity).
    destruct (lone der d i) as [[r x]| | |] eqn:E; cbn [bind]; try reflexivity.
    rewrite IH; [reflexivity|exact (lone_rest _ _ _ _ _ Hi E)].
  - rewrite (first_field_eq der d fs all i F), (Ef h o i Hi). fold (lone der d i).
    destruct (lone der d i) as [[r x]| | |] eqn:E; cbn [bind]; try reflexivity.
    rewrite IH; [reflexivity|exact (lone_rest _ _ _ _ _ Hi E)].
Qed.

(** Results are the same, errors included. *)
Theorem C96_same {A} (set : bool) (fs : dfields A) (q : qfields A) (i : bytes) :
  bytes_ok i ->
  (overrides false fs q -> ps_parse_ber (qparser set q) i = ps_parse_ber (dparser_of (DStruct set fs)) i)
  /\ (overrides true fs q -> ps_parse_der (qparser set q) i = ps_parse_der (dparser_of (DStruct set fs)) i).
Proof.
  intros Hi. cbn [dparser_of qparser]. unfold qparser, custom_parser, struct_parser. split; intros H.
  - cbn [default_parser codec_parser ps_parse_ber]. unfold parse_ber. cbn [accept_tag ber_content].
    destruct (header_parse_ber i) as [[r h]| | |] eqn:E; cbn [bind]; try reflexivity.
    destruct (is_tag (struct_tag set) (h_tag h)) eqn:T; [|reflexivity].
    destruct (ber_object_content h r MAX_RECURSION) as [[r2 d]| | |] eqn:E2; cbn [bind]; try reflexivity.
    unfold custom_content, struct_content. rewrite (overrides_eq false fs q H); [reflexivity|].
    assert (Ea : parse_ber_any i = Ok (r2, mk_any h d)) by (unfold parse_ber_any; rewrite E; cbn [bind]; rewrite E2; reflexivity).
    exact (proj1 (proj2 (any_ber_object _ _ _ Hi Ea))).
  - cbn [default_parser codec_parser ps_parse_der]. unfold parse_der. cbn [accept_tag der_content].
    destruct (header_parse_der i) as [[r h]| | |] eqn:E; cbn [bind]; try reflexivity.
    destruct (h_length h) as [l|] eqn:L; [|reflexivity].
    destruct (is_tag (struct_tag set) (h_tag h)) eqn:T; [|reflexivity].
    destruct (take l r) as [[r2 d]| | |] eqn:E2; cbn [bind]; try reflexivity.
    unfold custom_content, struct_content. rewrite (overrides_eq true fs q H); [reflexivity|].
    assert (Ea : parse_der_any i = Ok (r2, mk_any h d)).
    { unfold parse_der_any, length_assert_definite, der_get_content. rewrite E. cbn [bind]. rewrite L. cbn [is_definite bind].
      rewrite E2. reflexivity. }
    exact (proj1 (proj2 (any_der_object _ _ _ Hi Ea))).
Qed.
Print Assumptions C96_same.

(** The writers do not know the attribute.  [q] is the struct [fs] in which some fields have the attribute, with a parser that
    reads back what is written for the field. *)
Inductive reads_back : forall {A}, dfields A -> qfields A -> Prop :=
| reads_back_nil : reads_back FNil QNil
| reads_back_kept A B (d : dfields (A * unit)) (fs : dfields B) (all : dfields (A * B)) rest :
    first_field d fs all -> (forall x, reads_back fs (rest x)) -> reads_back all (QField d rest)
| reads_back_replaced A B (d : dfields (A * unit)) (fs : dfields B) (all : dfields (A * B)) f rest :
    first_field d fs all ->
    (forall h o x e r, components_of true d (x, tt) e -> blen (e ++ r) < 2 ^ 24 -> bytes_ok r -> f h o (e ++ r) = Ok (r, x)) ->
    (forall x, reads_back fs (rest x)) -> reads_back all (QCustom f rest).

Lemma component_split {A B} der (d : dfields (A * unit)) (fs : dfields B) all x y bs :
  first_field d fs all -> fields_wf all -> fields_writable all -> components_of true all (x, y) bs -> blen bs < 2 ^ 24 ->
  (fields_wf fs /\ fields_writable fs)
  /\ exists e r, bs = e ++ r /\ components_of true d (x, tt) e /\ components_of true fs y r /\ bytes_ok r
    /\ lone der d (e ++ r) = Ok (r, x).
Proof.
  assert (Nil : forall T (S : syntax T) v e, encodes S v e -> component S no_component (v, tt) e).
  { intros T S v e E. exists e, []. split; [exact E|]. split; [reflexivity|]. symmetry. apply app_nil_r. }
  assert (Go : forall T (pb pd lb ld : bytes -> res (bytes * T)) D (Lg : Prop) e r v, one_sound pb pd lb ld D Lg -> D v e r ->
    fields_wf fs -> components_of true fs y r -> bytes_ok r -> blen (e ++ r) < 2 ^ 24 ->
    (let* (r, v) := field (if der then pd else pb) no_field (e ++ r) in Ok (r, fst v)) = Ok (r, v)).
  { intros T pb pd lb ld D Lg e r v H Hd Hf Hc Hr Hn.
    assert (Hst : r = [] \/ starts_object r).
    { apply (fo_starts _ _ _ _ _ _ _ _ _ _ (proj1 (proj2 derive_sound) B fs Hf true) y r Hc). rewrite blen_app in Hn. lia. }
    destruct (H v e r Hd Hr Hst Hn) as (_ & _ & R1 & R2 & _). unfold field, no_field. destruct der; [rewrite R2|rewrite R1]; reflexivity. }
  assert (Ok' : fields_wf fs -> forall r, components_of true fs y r -> bytes_ok r).
  { intros Hf r Hc. exact (fo_ok _ _ _ _ _ _ _ _ _ _ (proj1 (proj2 derive_sound) B fs Hf true) y r Hc). }
  intros F Hwf Hw C Hn. unfold lone, fields_of. destruct F; cbn [fields_wf fields_writable components_of present_or_default] in *; try tauto.
  - destruct Hwf as [Ht Hf]. split; [tauto|]. destruct C as (e & r & E & Cr & ->). pose proof (Ok' Hf r Cr) as Hr. exists e, r.
    pose proof (proj1 derive_sound _ t Ht true) as S. do 4 (split; [auto|]).
    rewrite <- (Go _ _ _ _ _ _ _ e r x (plain_one _ _ _ _ (so_syntax S) (so_parser S) (so_legacy S)) E Hf Cr Hr Hn). destruct der; reflexivity.
  - destruct Hwf as [Ht Hf]. split; [tauto|]. destruct C as (e & r & E & Cr & ->). pose proof (Ok' Hf r Cr) as Hr. exists e, r.
    pose proof (proj1 derive_sound _ t Ht true) as S. do 4 (split; [auto|]).
    rewrite <- (Go _ _ _ _ _ _ _ e r x (default_one _ _ _ _ _ _ d _ (option_one _ _ _ _ _ (so_syntax S) (so_parser S) (so_accept S) (so_legacy S))) (or_introl E) Hf Cr Hr Hn). destruct der; reflexivity.
  - destruct Hwf as ([Hg Hgi] & Ht & Hf). split; [tauto|]. destruct C as (e & r & E & Cr & ->). pose proof (Ok' Hf r Cr) as Hr. exists e, r.
    pose proof (proj1 derive_sound _ t Ht true) as S. do 4 (split; [auto|]).
    assert (HT : tag_sound g (dparser_of t) (dlegacy_of t) (tagged_syntax true g (dsyntax_of true t)) (has_dlegacy t)).
    { apply (tagged_sound _ _ _ _ _ _ _ _ _ true g S Hg). intros E'. rewrite E' in Hgi. exact Hgi. }
    destruct HT as (T1 & T2 & T3 & T4).
    rewrite <- (Go _ _ _ _ _ _ _ e r x (plain_one _ _ _ _ T1 T2 T3) E Hf Cr Hr Hn). destruct der; reflexivity.
  - destruct Hwf as ([Hg Hgi] & Ht & Hf). split; [tauto|]. destruct C as (e & r & E & Cr & ->). pose proof (Ok' Hf r Cr) as Hr. exists e, r.
    pose proof (proj1 derive_sound _ t Ht true) as S. do 4 (split; [auto|]).
    assert (HT : tag_sound g (dparser_of t) (dlegacy_of t) (tagged_syntax true g (dsyntax_of true t)) (has_dlegacy t)).
    { apply (tagged_sound _ _ _ _ _ _ _ _ _ true g S Hg). intros E'. rewrite E' in Hgi. exact Hgi. }
    rewrite <- (Go _ _ _ _ _ _ _ e r x (default_one _ _ _ _ _ _ d _ (tagged_option_one _ _ _ _ _ HT)) (or_introl E) Hf Cr Hr Hn). destruct der; reflexivity.
Qed.

Lemma reads_back_pread der {A} (fs : dfields A) q : reads_back fs q -> fields_wf fs -> fields_writable fs ->
  forall h o v bs, components_of true fs v bs -> blen bs < 2 ^ 24 -> pread der (pfields_of q) h o bs = Ok ([], v).
Proof.
  induction 1 as [|A B d fs all rest F H IH|A B d fs all f rest F Ef H IH]; intros Hwf Hw h o v bs C Hn; cbn [pfields_of pread].
  - change (bs = []) in C. subst bs. destruct v. reflexivity.
  - destruct v as [x y]. destruct (component_split der d fs all x y bs F Hwf Hw C Hn) as ([Hf Hwf'] & e & r & -> & Cd & Cr & Hr & L).
    replace (if der then lone true d else lone false d) with (lone der d) by (destruct der; reflexivity).
    rewrite L. cbn [bind]. rewrite blen_app in Hn. rewrite (IH x Hf Hwf' h o y r Cr) by lia. reflexivity.
  - destruct v as [x y]. destruct (component_split der d fs all x y bs F Hwf Hw C Hn) as ([Hf Hwf'] & e & r & -> & Cd & Cr & Hr & _).
    rewrite (Ef h o x e r Cd Hn Hr). cbn [bind]. rewrite blen_app in Hn. rewrite (IH x Hf Hwf' h o y r Cr) by lia. reflexivity.
Qed.

Theorem C96_roundtrip {A} (set : bool) (fs : dfields A) (q : qfields A) (v : A) (enc x : bytes) :
  let t := DStruct set fs in
  dwf t -> writable t -> reads_back fs q -> encodes (dsyntax_of true t) v enc -> blen enc < 2 ^ 24 -> bytes_ok x ->
  to_vec (wr_ber (dwriter_of t) v) = Ok enc /\ to_vec (wr_der (dwriter_of t) v) = Ok enc
  /\ ps_parse_ber (qparser set q) (enc ++ x) = Ok (x, v) /\ ps_parse_der (qparser set q) (enc ++ x) = Ok (x, v).
Proof.
  intros t Hwf Hw Hq E Hn Hx. destruct (C65_derived_roundtrip_partial _ _ _ Hwf Hw E Hn) as (W1 & W2 & _).
  split; [exact W1|]. split; [exact W2|].
  apply (parser_reads _ (dsyntax_of true t)); [|exact (so_syntax (proj1 derive_sound _ t Hwf true))|exact E|exact Hn|exact Hx].
  split; [apply default_regular|]. intros u cb c k n En Cb Hc. injection En as <- <- <-.
  split; [destruct set; reflexivity|]. intros rt rh h.
  split; exists []; apply custom_content_ok; (split; [reflexivity|]); apply (reads_back_pread _ fs); assumption.
Qed.
Print Assumptions C96_roundtrip.

(** ** [orig_input] *)

(** doc/DERIVE.md:570-586: a field that keeps the contents of the struct. *)
Definition keep_input {A} (d : dfields (A * unit)) : qfields (A * (bytes * unit)) :=
  QField d (fun _ => QCustom (fun _ orig_input input => Ok (input, orig_input)) (fun _ => QNil)).

Theorem C96_orig_input {A} (set : bool) (d : dfields (A * unit)) (i rem : bytes) (x : A) (o : bytes) :
  fields_wf d -> bytes_ok i ->
  let P := qparser set (keep_input d) in let tag := if set then 17 else 16 in
  (ps_parse_ber P i = Ok (rem, (x, (o, tt))) <->
     exists c r, starts_with_ber_object c true tag o i rem /\ reads_fields false d (x, tt) o r)
  /\ (ps_parse_der P i = Ok (rem, (x, (o, tt))) <->
     exists c r, starts_with_object c true tag o i rem /\ reads_fields true d (x, tt) o r).
Proof.
  intros Hd Hi P tag.
  assert (Hq : qwf (keep_input d)).
  { cbn. split; [exact Hd|]. intros _. split; [|intros; exact I]. intros h o' i' r x' _ H E. injection E as <- _. exact H. }
  destruct (C96_accept set (keep_input d) i rem (x, (o, tt)) Hq Hi) as [HB HD]. fold P in HB, HD. fold tag in HB, HD.
  cbn [keep_input reads_custom fst snd] in HB, HD. split.
  - rewrite HB. split.
    + intros (c & t & l & idb & lenb & bs & r & HR & T & Hb & Hc & m & F & m2 & G & _). injection G as <- <-.
      exists c, m. split; [|exact F]. exists t, l, idb, lenb, bs. auto.
    + intros (c & r & (t & l & idb & lenb & bs & HR & T & Hb & Hc & ->) & F). exists c, t, l, idb, lenb, bs, r.
      do 4 (split; [assumption|]). exists r. split; [exact F|]. exists r. auto.
  - rewrite HD. split.
    + intros (c & t & idb & lenb & bs & r & HR & T & Hb & m & F & m2 & G & _). injection G as <- <-.
      exists c, m. split; [|exact F]. exists t, idb, lenb. auto.
    + intros (c & r & (t & idb & lenb & HR & T & Hb) & F). exists c, t, idb, lenb, o, r.
      do 3 (split; [assumption|]). exists r. split; [exact F|]. exists r. auto.
Qed.
Print Assumptions C96_orig_input.

(** ** No panic, and stable *)

(** The custom parsers do not panic (nor run out of the fuel of the model, nor ask for no octets), and return octets. *)
Fixpoint qsafe {A} (q : qfields A) : Prop :=
  match q with
  | QNil => True
  | QField d rest => forall x, qsafe (rest x)
  | QCustom f rest => (forall h o i, bytes_ok o -> bytes_ok i -> sane (f h o i) /\ forall r x, f h o i = Ok (r, x) -> bytes_ok r)
                      /\ forall x, qsafe (rest x)
  end.

Lemma pread_sane der {A} (q : qfields A) : qsafe q -> forall h o i, bytes_ok o -> bytes_ok i -> sane (pread der (pfields_of q) h o i).
Proof.
  induction q as [|A B d rest IH|A B f rest IH]; cbn [qsafe pfields_of pread]; intros Hq h o i Ho Hi.
  - exact I.
  - replace (if der then lone true d else lone false d) with (lone der d) by (destruct der; reflexivity).
    apply sane_bind; [apply lone_safe; exact Hi|]. intros [r x] E.
    apply sane_bind; [apply IH; [apply Hq|exact Ho|exact (lone_rest _ _ _ _ _ Hi E)]|]. intros [r2 y] _. exact I.
  - destruct Hq as [Hf Hr]. destruct (Hf h o i Ho Hi) as [S1 S2]. apply sane_bind; [exact S1|]. intros [r x] E.
    apply sane_bind; [apply IH; [apply Hr|exact Ho|exact (S2 _ _ E)]|]. intros [r2 y] _. exact I.
Qed.

(** Whatever a custom parser does with the octets it gets, the struct ends where its header says. *)
Theorem C96_quiet {A} (set : bool) (q : qfields A) :
  qsafe q -> let P := qparser set q in
  (never_panics (ps_parse_ber P) /\ never_panics (ps_parse_der P)) /\ (ends (ps_parse_ber P) /\ ends (ps_parse_der P))
  /\ stable (ps_parse_ber P) /\ stable (ps_parse_der P).
Proof.
  intros Hq P.
  assert (S : steady_parser P).
  { apply default_parser_steady; intros h d Hd; unfold custom_content;
      (apply sane_bind; [unfold assert_constructed; destruct (h_constructed h); cbn; [exact I|discriminate]|]);
      intros _ _; apply pread_sane; assumption. }
  destruct S as (_ & _ & S1 & S2).
  split; [split; apply steady_never; assumption|]. split; [split; apply steady_ends; assumption|].
  split; apply steady_stable; assumption.
Qed.
Print Assumptions C96_quiet.

(** ** Cases *)

(** tests/run-pass/sequence.rs:28-73; a parser that goes back, and one that uses the header and a field before. *)
Definition u32_field : dfields (Z * unit) := FPlain (DTy (TBase (BUint 4))) FNil.
Definition return_ff : qfields (Z * unit) := QCustom (fun _ _ input => Ok (input, 0xff%Z)) (fun _ => QNil).
Definition go_back : qfields (Z * (unit * (Z * unit))) :=
  QField u32_field (fun _ => QCustom (fun _ orig_input _ => Ok (orig_input, tt)) (fun _ => QField u32_field (fun _ => QNil))).
Definition use_header : qfields (Z * (Z * unit)) :=
  QField u32_field (fun a => QCustom (fun h _ input => Ok ([], (a + Z.of_N (h_tag h) + Z.of_N (blen input))%Z)) (fun _ => QNil)).

Definition u32_custom : qfields (Z * unit) :=
  QCustom (fun _ _ i => ps_parse_der (dparser_of (DTy (TBase (BUint 4)))) i) (fun _ => QNil).

Example C96_case :
  ps_parse_der (qparser false return_ff) [0x30; 4; 2; 2; 0; 0xaa] = Ok ([], (0xff%Z, tt))
  /\ ps_parse_der (qparser false (keep_input u32_field)) [0x30; 4; 2; 2; 0; 0xaa; 9] = Ok ([9], (0xaa%Z, ([2; 2; 0; 0xaa], tt)))
  /\ ps_parse_ber (qparser true go_back) [0x31; 0x80; 2; 1; 7; 0; 0] = Ok ([], (7%Z, (tt, (7%Z, tt))))
  /\ ps_parse_der (qparser true use_header) [0x31; 5; 2; 1; 1; 5; 0] = Ok ([], (1%Z, (20%Z, tt)))
  /\ ps_parse_der (qparser false return_ff) [0x10; 4; 2; 2; 0; 0xaa] = Err EConstructExpected
  /\ (qwf go_back /\ qsafe go_back)
  /\ overrides true u32_field u32_custom /\ reads_back u32_field u32_custom.
Proof.
  do 5 (split; [vm_compute; reflexivity|]). split.
  - cbn. split.
    + split; [repeat split; lia|]. intros _. split; [|intros _; split; [repeat split; lia|intros; exact I]].
      intros h o i r x Ho _ E. injection E as <- _. exact Ho.
    + intros _. split; [|intros; exact I]. intros h o i Ho _. split; [exact I|]. intros r x E. injection E as <- _. exact Ho.
  - split; [apply (overrides_replaced true _ _ u32_field FNil u32_field)|apply (reads_back_replaced _ _ u32_field FNil u32_field)].
    + apply first_plain.
    + intros h o i _. cbn [fields_of u32_field der_of]. unfold field, no_field, fld_plain_der.
      destruct (ps_parse_der _ i) as [[r x]| | |]; reflexivity.
    + intros _. constructor.
    + apply first_plain.
    + intros h o v e r C Hn Hr.
      assert (Hu : fields_wf u32_field /\ fields_writable u32_field) by (cbn; repeat split; lia).
      destruct (component_split true u32_field FNil u32_field v tt e (first_plain _ _ _ _) (proj1 Hu) (proj2 Hu) C) as (_ & e' & r' & -> & C' & Cr & _ & _);
        [rewrite blen_app in Hn; lia|]. change (r' = []) in Cr. subst r'. rewrite app_nil_r in *. destruct C as (e & r' & E & Cr & ->). change (r' = []) in Cr. subst r'.
      rewrite app_nil_r in *. pose proof (proj1 derive_sound _ (DTy (TBase (BUint 4))) ltac:(cbn; lia) true) as S.
      apply (parser_reads _ _ _ _ _ (so_parser S) (so_syntax S) E); [rewrite blen_app in Hn; lia|exact Hr].
    + intros _. constructor.
Qed.
