(** Properties of types declared with the derive macros. *)
From Coq Require Import Permutation.
From Verif Require Import Base MHeader MEncode SHeader PArith PHeader PEncode MBer SBer PBer PIter PCodec.
From Verif Require Import MInt SInt PInt MSeg SSeg MOid MText SText PropText.
From Verif Require Import MTime STime MCont SCont PCont SBase PBase PTypes PropCont PropTag MDerive SDerive PDerive.

(** ** C65: writing derived types *)

(** Every entry point of the type reads [enc], whatever follows it. *)
Definition dreads {A} (t : dty A) (enc : bytes) (v : A) : Prop :=
  forall x, bytes_ok x ->
    ps_parse_ber (dparser_of t) (enc ++ x) = Ok (x, v) /\ ps_parse_der (dparser_of t) (enc ++ x) = Ok (x, v)
    /\ (has_dlegacy t -> lg_from_ber (dlegacy_of t) (enc ++ x) = Ok (x, v)
                         /\ lg_from_der (dlegacy_of t) (enc ++ x) = Ok (x, v)).

(** A value of a derived type is written as its declaration says (components with a default value always
    present), with the announced length, and every reader gives it back.  Excluded, see the refutations
    below: OPTIONAL components, components with an implicit tag whose length octets would change size, and
    variants of type [SetOf]. *)
Theorem C65_derived_roundtrip_partial {A} (t : dty A) (v : A) (enc : bytes) :
  dwf t -> writable t -> encodes (dsyntax_of true t) v enc -> blen enc < 2 ^ 24 ->
  to_vec (wr_ber (dwriter_of t) v) = Ok enc /\ to_vec (wr_der (dwriter_of t) v) = Ok enc
  /\ total_len (wr_ber (dwriter_of t) v) = Definite (blen enc)
  /\ total_len (wr_der (dwriter_of t) v) = Definite (blen enc)
  /\ dreads t enc v.
Proof.
  intros Hwf Hw E Hn. pose proof (proj1 derive_sound A t Hwf true) as H.
  destruct (writer_encodes _ _ v enc (so_writer H (conj eq_refl Hw)) (so_syntax H) E Hn) as [[W1 W2] [W3 W4]].
  unfold to_vec. rewrite W1, W3. cbn [bind]. do 4 (split; [first [reflexivity|assumption]|]).
  intros x Hx. destruct (parser_reads _ _ v enc x (so_parser H) (so_syntax H) E Hn Hx) as [R1 R2].
  split; [exact R1|]. split; [exact R2|]. intros Hl.
  exact (legacy_reads _ _ v enc x (so_legacy H Hl) (so_syntax H) E Hn Hx).
Qed.
Print Assumptions C65_derived_roundtrip_partial.

(** Every valid value whose announced length is below 2^24 has such an encoding. *)
Theorem C65_derived_total_partial {A} (t : dty A) (v : A) (n : N) :
  dwf t -> writable t -> sx_valid (dsyntax_of true t) v ->
  total_len (wr_der (dwriter_of t) v) = Definite n -> n < 2 ^ 24 ->
  exists enc, encodes (dsyntax_of true t) v enc /\ blen enc = n
    /\ to_vec (wr_der (dwriter_of t) v) = Ok enc /\ dreads t enc v.
Proof.
  intros Hwf Hw Hv L Hn. pose proof (proj1 derive_sound A t Hwf true) as H.
  destruct (writer_total _ _ v n (so_writer H (conj eq_refl Hw)) (so_syntax H) Hv L Hn) as (enc & E & El).
  exists enc. split; [exact E|]. split; [exact El|].
  destruct (C65_derived_roundtrip_partial t v enc Hwf Hw E ltac:(lia)) as (_ & R1 & _ & _ & R2). auto.
Qed.
Print Assumptions C65_derived_total_partial.

(** A struct with a tagged component with default, an INTEGER, an implicitly tagged OCTET STRING, and a
    nested SET of an ENUMERATED and a CHOICE. *)
Definition explicit_ctx (n : N) := mk_tagging KExplicit ContextSpecific n.
Definition implicit_ctx (n : N) := mk_tagging KImplicit ContextSpecific n.
Definition choice_type := DChoice None (VCons 0 (DTy (TBase BBool)) (VCons 1 (DTy (TBase BOctets)) VNil)).
Definition inner_type := DStruct true (FPlain (DEnum [0; 3; 7]) (FPlain choice_type FNil)).
Definition outer_type :=
  DStruct false (FTaggedDefault (explicit_ctx 0) 0%Z (DTy (TBase (BUint 1)))
                (FPlain (DTy (TBase (BInt 4)))
                (FTagged (implicit_ctx 1) (DTy (TBase BOctets))
                (FPlain inner_type FNil)))).
Definition outer_value : Z * (Z * (list N * ((N * ((bool + (list N + Empty_set)) * unit)) * unit))) :=
  (2%Z, ((-5)%Z, ([1; 2; 3], ((3, (inr (inl [65; 66]), tt)), tt)))).
Definition outer_octets := [0x30; 22; 0xa0; 3; 2; 1; 2; 2; 1; 0xfb; 0x81; 3; 1; 2; 3; 0x31; 7; 10; 1; 3; 4; 2; 65; 66].

Lemma outer_wf : dwf outer_type.
Proof.
  cbn. unfold tagging_ok. cbn. repeat split; try lia; repeat constructor; cbn; try lia; intuition (try lia; try discriminate).
Qed.

Example C65_case : dwf outer_type /\ writable outer_type
  /\ to_vec (wr_der (dwriter_of outer_type) outer_value) = Ok outer_octets
  /\ total_len (wr_der (dwriter_of outer_type) outer_value) = Definite 24
  /\ ps_parse_der (dparser_of outer_type) outer_octets = Ok ([], outer_value).
Proof.
  split; [exact outer_wf|]. split; [cbn; tauto|]. split; [vm_compute; reflexivity|]. split; vm_compute; reflexivity.
Qed.

(** OPTIONAL components cannot be written: [None] is counted as two octets of which none is written, [Some]
    does not return; under a tag, [None] is written as an empty object, which is read as a value. *)
Definition optional_bool := DStruct false (FOption (DTy (TBase BBool)) FNil).
Definition tagged_optional_type := DStruct false (FTaggedOption (implicit_ctx 1) (DTy (TBase BOctets)) FNil).
Theorem C65_optional_refuted :
  to_vec (wr_der (dwriter_of optional_bool) (None, tt)) = Ok [0x30; 2]
  /\ ps_parse_der (dparser_of optional_bool) [0x30; 2] = Incomplete 2
  /\ (forall b, encode (wr_der (dwriter_of optional_bool) (Some b, tt)) = Panic
                /\ encode (wr_ber (dwriter_of optional_bool) (Some b, tt)) = Panic)
  /\ to_vec (wr_der (dwriter_of tagged_optional_type) (None, tt)) = Ok [0x30; 2; 0x81; 0]
  /\ ps_parse_der (dparser_of tagged_optional_type) [0x30; 2; 0x81; 0] = Ok ([], (Some [], tt))
  /\ (forall d, encode (wr_der (dwriter_of tagged_optional_type) (Some d, tt)) = Panic).
Proof.
  split; [vm_compute; reflexivity|]. split; [vm_compute; reflexivity|]. split; [intros []; split; vm_compute; reflexivity|].
  split; [vm_compute; reflexivity|]. split; [vm_compute; reflexivity|]. intros d. vm_compute. reflexivity.
Qed.
Print Assumptions C65_optional_refuted.

(** Every type with an OPTIONAL component: no value with that component is written. *)
Theorem C65_optional_never {A B} (set : bool) (t : dty A) (fs : dfields B) (g : tagging) (x : A) (y : B) :
  encode (wr_ber (dwriter_of (DStruct set (FOption t fs))) (Some x, y)) = Panic
  /\ encode (wr_der (dwriter_of (DStruct set (FOption t fs))) (Some x, y)) = Panic
  /\ encode (wr_ber (dwriter_of (DStruct set (FTaggedOption g t fs))) (Some x, y)) = Panic
  /\ encode (wr_der (dwriter_of (DStruct set (FTaggedOption g t fs))) (Some x, y)) = Panic.
Proof. destruct set; repeat split; vm_compute; reflexivity. Qed.
Print Assumptions C65_optional_never.

(** A component with an implicit tag and 126 octets of content: the length announced is one too large, and
    what is written cannot be read. *)
Definition implicit_octets := DStruct false (FTagged (implicit_ctx 1) (DTy (TBase BOctets)) FNil).
Theorem C65_implicit_refuted :
  let d := repeat 7 126 in
  to_vec (wr_der (dwriter_of implicit_octets) (d, tt)) = Ok (0x30 :: 0x81 :: 129 :: 0x81 :: 126 :: d)
  /\ ps_parse_der (dparser_of implicit_octets) (0x30 :: 0x81 :: 129 :: 0x81 :: 126 :: d) = Incomplete 1
  /\ ps_parse_der (dparser_of implicit_octets) (0x30 :: 0x81 :: 128 :: 0x81 :: 126 :: d) = Ok ([], (d, tt)).
Proof. repeat split; vm_compute; reflexivity. Qed.
Print Assumptions C65_implicit_refuted.

(** DER wants a component equal to its default value left out (X.690 11.5); it is written. *)
Definition default_uint := DStruct false (FTaggedDefault (explicit_ctx 0) 0%Z (DTy (TBase (BUint 1))) FNil).
Theorem C65_default_refuted :
  to_vec (wr_der (dwriter_of default_uint) (0%Z, tt)) = Ok [0x30; 5; 0xa0; 3; 2; 1; 0]
  /\ ps_parse_der (dparser_of default_uint) [0x30; 0] = Ok ([], (0%Z, tt)).
Proof. split; vm_compute; reflexivity. Qed.
Print Assumptions C65_default_refuted.

(** A variant of type [SetOf] is written in primitive form. *)
Definition set_variant := DChoice None (VCons 0 (DTy (TSetOf (TBase BBool))) VNil).
Theorem C65_set_variant_refuted :
  to_vec (wr_der (dwriter_of set_variant) (inl [true])) = Ok [0x11; 3; 1; 1; 0xff]
  /\ ps_parse_der (dparser_of set_variant) [0x11; 3; 1; 1; 0xff] = Err EConstructExpected
  /\ ps_parse_der (dparser_of set_variant) [0x31; 3; 1; 1; 0xff] = Ok ([], inl [true]).
Proof. repeat split; vm_compute; reflexivity. Qed.
Print Assumptions C65_set_variant_refuted.

(** ** C66: reading SEQUENCE and SET *)

(** Every encoding, per declaration, of a value of a derived type is read, whatever the type of the
    components: OPTIONAL and DEFAULT ones may be absent. *)
Theorem C66_derived_reads {A} (t : dty A) (v : A) (enc : bytes) :
  dwf t -> encodes (dsyntax_of false t) v enc -> blen enc < 2 ^ 24 -> dreads t enc v.
Proof.
  intros Hwf E Hn. pose proof (proj1 derive_sound A t Hwf false) as H.
  intros x Hx. destruct (parser_reads _ _ v enc x (so_parser H) (so_syntax H) E Hn Hx) as [R1 R2].
  split; [exact R1|]. split; [exact R2|]. intros Hl.
  exact (legacy_reads _ _ v enc x (so_legacy H Hl) (so_syntax H) E Hn Hx).
Qed.
Print Assumptions C66_derived_reads.

(** What is accepted. *)
Definition dread {A} (der : bool) (P : parser A) (i rem : bytes) (v : A) : Prop :=
  (if der then ps_parse_der P i else ps_parse_ber P i) = Ok (rem, v).

(** No component with one of these tag numbers comes next: the end, or another tag number (of any class;
    in DER, with a definite length). *)
Definition absent (der : bool) (tags : list N) (i : bytes) : Prop :=
  i = [] \/ exists u l, starts_with_tag u l i /\ ~ In u tags /\ (der = true -> l <> Indefinite).
(** One of them comes next; [ind]: possibly with an indefinite length. *)
Definition comes (ind : bool) (tags : list N) (i : bytes) : Prop :=
  exists u l, starts_with_tag u l i /\ In u tags /\ (ind = false -> l <> Indefinite).

Definition optional_read {A} (absent : bytes -> Prop) (present : bytes -> bytes -> A -> Prop) (i rem : bytes) (o : option A)
  : Prop := match o with Some x => present i rem x | None => absent i /\ rem = i end.
Definition default_read {A} (d : A) (absent : bytes -> Prop) (present : bytes -> bytes -> A -> Prop) (i rem : bytes) (x : A)
  : Prop := present i rem x \/ (absent i /\ rem = i /\ x = d).

(** The components, read one after the other. *)
Definition then_read {A B} (R : bytes -> bytes -> A -> Prop) (Q : B -> bytes -> bytes -> Prop) (v : A * B) (i rem : bytes)
  : Prop := exists m, R i m (fst v) /\ Q (snd v) m rem.
Definition untagged_present {A} (der : bool) (t : dty A) (i m : bytes) (x : A) : Prop :=
  comes false (dtags t) i /\ dread der (dparser_of t) i m x.
Definition tagged_present {A} (der : bool) (g : tagging) (t : dty A) (i m : bytes) (x : A) : Prop :=
  comes true [tg_num g] i /\ dread der (tagged_parser g (dparser_of t)) i m x.

Fixpoint reads_fields (der : bool) {A} (fs : dfields A) : A -> bytes -> bytes -> Prop :=
  match fs with
  | FNil => fun _ i rem => rem = i
  | FPlain t fs => then_read (dread der (dparser_of t)) (reads_fields der fs)
  | FOption t fs => then_read (optional_read (absent der (dtags t)) (untagged_present der t)) (reads_fields der fs)
  | FDefault d t fs => then_read (default_read d (absent der (dtags t)) (untagged_present der t)) (reads_fields der fs)
  | FTagged g t fs => then_read (dread der (tagged_parser g (dparser_of t))) (reads_fields der fs)
  | FTaggedOption g t fs =>
      then_read (optional_read (absent der [tg_num g]) (tagged_present der g t)) (reads_fields der fs)
  | FTaggedDefault g d t fs =>
      then_read (default_read d (absent der [tg_num g]) (tagged_present der g t)) (reads_fields der fs)
  end.

(** An input starts with a header, or it does not. *)
Lemma header_starts i r h : bytes_ok i -> header_parse_ber i = Ok (r, h) -> starts_with_tag (h_tag h) (h_length h) i.
Proof.
  intros Hi E. apply parse_header_ok in E as (c & k & u & l & idb & lenb & H1 & H2 & -> & ->); [|exact Hi].
  exists c, k, u, idb, lenb, r. cbn [h_tag h_length]. split; [split; [exact H1|exact H2]|]. auto.
Qed.

Lemma not_in_accept {A} (P : parser A) tags u :
  (forall n, ps_accept P n = true <-> In n tags) -> (~ In u tags <-> ps_accept P u = false).
Proof. intros H. rewrite <- H. destruct (ps_accept P u); intuition congruence. Qed.

Lemma present_ok {T} (r : res (bytes * T)) rem o : present r = Ok (rem, o) <-> exists x, o = Some x /\ r = Ok (rem, x).
Proof.
  destruct r as [[rm x]|e|n|]; cbn [present]; split; try discriminate; try (intros (y & _ & E); discriminate).
  - intros E. injection E as -> <-. exists x. auto.
  - intros (y & -> & E). injection E as -> ->. reflexivity.
Qed.

Definition parse_of {T} (der : bool) (P : parser T) : bytes -> res (bytes * T) :=
  if der then ps_parse_der P else ps_parse_ber P.
Definition header_of (der : bool) : bytes -> res (bytes * header) := if der then header_parse_der else header_parse_ber.

Lemma dread_eq {T} der (P : parser T) i rem v : dread der P i rem v <-> parse_of der P i = Ok (rem, v).
Proof. destruct der; reflexivity. Qed.

Lemma header_of_starts der i r h : bytes_ok i -> header_of der i = Ok (r, h) ->
  starts_with_tag (h_tag h) (h_length h) i /\ (der = true -> h_length h <> Indefinite).
Proof.
  intros Hi E. destruct der; cbn [header_of] in E.
  - unfold header_parse_der in E. apply bind_ok in E as ([r' h'] & E & F). destruct (h_length h') eqn:El; cbn in F; [|discriminate].
    injection F as <- <-. split; [apply (header_starts i r'); assumption|]. rewrite El. discriminate.
  - split; [apply (header_starts i r); assumption|discriminate].
Qed.

Lemma starts_header_of der i u l : bytes_ok i -> starts_with_tag u l i -> (der = true -> l <> Indefinite) ->
  i <> [] /\ exists r h, header_of der i = Ok (r, h) /\ h_tag h = u /\ h_length h = l.
Proof.
  intros Hi St Hl. destruct (starts_header u l i Hi St) as (Hne & r & h & Eh & Et & El). split; [exact Hne|].
  exists r, h. split; [|auto]. destruct der; [|exact Eh].
  cbn [header_of]. unfold header_parse_der, header_parse_ber. rewrite Eh. cbn [bind]. rewrite El.
  destruct l; [reflexivity|]. exfalso. apply (Hl eq_refl). reflexivity.
Qed.

Lemma option_reads {A} der (P : parser A) tags i rem o :
  regular P -> (forall n, ps_accept P n = true <-> In n tags) -> bytes_ok i ->
  (parse_of der (option_parser P) i = Ok (rem, o) <->
   optional_read (absent der tags) (fun i m x => comes false tags i /\ dread der P i m x) i rem o).
Proof.
  intros R HA Hi.
  destruct (C28_optional_partial P (mk_legacy 0 (fun _ => Panic) (fun _ => Panic) (fun _ => Panic) (fun _ => Panic)) i R Hi)
    as (H1 & H2 & H3).
  split.
  - intros E. assert (C : i = [] \/ exists r h, i <> [] /\ header_of der i = Ok (r, h)).
    { destruct i as [|b i]; [auto|right]. 
      destruct der; cbn [parse_of option_parser ps_parse_ber ps_parse_der] in E; unfold option_parse in E;
      (destruct (N.eqb_spec (blen (b :: i)) 0) as [H0|_]; [apply blen_zero in H0; discriminate|]);
      apply bind_ok in E as ([r h] & E & _); exists r, h; split; [discriminate|exact E|discriminate|exact E]. }
    destruct C as [->|(r & h & Hne & Eh)].
    + assert (E0 : parse_of der (option_parser P) [] = Ok ([], None)) by (destruct der; reflexivity).
      rewrite E0 in E. injection E as <- <-. split; [left; reflexivity|reflexivity].
    + destruct (header_of_starts der i r h Hi Eh) as [St Hl].
      destruct (ps_accept P (h_tag h)) eqn:Ac.
      * specialize (H2 _ _ St Ac). destruct H2 as (_ & _ & _ & _ & D1 & D2).
        assert (Hd : h_length h <> Indefinite).
        { intros F. destruct der; [exact (Hl eq_refl F)|]. rewrite F in St. cbn [parse_of] in E.
          exact (C28_indefinite_never P i _ Hi St Ac _ E). }
        assert (E' : present (parse_of der P i) = Ok (rem, o)).
        { destruct der; [exact (eq_trans (eq_sym D1) E)|exact (eq_trans (eq_sym (D2 Hd)) E)]. }
        apply present_ok in E' as (x & -> & E'). cbn [optional_read]. split; [|apply dread_eq; exact E'].
        exists (h_tag h), (h_length h). split; [exact St|]. split; [apply HA; exact Ac|intros _; exact Hd].
      * specialize (H3 _ _ St Ac). destruct H3 as [X Y].
        assert (E' : Ok (i, None) = Ok (rem, o)).
        { rewrite <- E. destruct der; cbn [parse_of].
          - specialize (Y (Hl eq_refl)). inversion_clear Y as [|? ? _ Z]. inversion_clear Z as [|? ? _ Y].
            inversion_clear Y as [|? ? E1 _]. symmetry. exact E1.
          - inversion_clear X as [|? ? _ Z]. inversion_clear Z as [|? ? _ X]. inversion_clear X as [|? ? E1 _].
            symmetry. exact E1. }
        injection E' as <- <-. split; [|reflexivity]. right. exists (h_tag h), (h_length h).
        split; [exact St|]. split; [apply (not_in_accept P tags _ HA); exact Ac|exact Hl].
  - destruct o as [x|]; cbn [optional_read].
    + intros [(u & l & St & Hu & Hl) E]. apply dread_eq in E. apply HA in Hu. specialize (Hl eq_refl).
      specialize (H2 _ _ St Hu). destruct H2 as (_ & _ & _ & _ & D1 & D2).
      destruct der; [refine (eq_trans D1 _)|refine (eq_trans (D2 Hl) _)]; cbn [parse_of] in E; rewrite E; reflexivity.
    + intros [[->|(u & l & St & Hu & Hl)] ->].
      * destruct der; reflexivity.
      * apply (not_in_accept P tags _ HA) in Hu. specialize (H3 _ _ St Hu). destruct H3 as [X Y].
        destruct der; cbn [parse_of].
        { specialize (Y (Hl eq_refl)). inversion_clear Y as [|? ? _ Z]. inversion_clear Z as [|? ? _ Y].
          inversion_clear Y as [|? ? E1 _]. exact E1. }
        { inversion_clear X as [|? ? _ Z]. inversion_clear Z as [|? ? _ X]. inversion_clear X as [|? ? E1 _]. exact E1. }
Qed.

Lemma tagged_header {A} der g (P : parser A) i x :
  parse_of der (tagged_parser g P) i = Ok x -> exists r h, header_of der i = Ok (r, h).
Proof.
  intros E. unfold tagged_parser in E.
  destruct der, (tg_kind g); apply bind_ok in E as ([r h] & E & _); exists r, h; exact E.
Qed.

Lemma no_header {A} der (g : tagging) (P : parser A) b i rem o (F : res (bytes * option A)) :
  bytes_ok (b :: i) -> (forall r h, header_of der (b :: i) <> Ok (r, h)) -> (forall x, F <> Ok x) ->
  (F = Ok (rem, o) <->
   optional_read (absent der [tg_num g]) (fun i m x => comes true [tg_num g] i /\ dread der (tagged_parser g P) i m x)
     (b :: i) rem o).
Proof.
  intros Hi H HF. split; [intros E; exfalso; exact (HF _ E)|]. intros E. exfalso. destruct o as [x|]; cbn [optional_read] in E.
  - destruct E as [_ E]. apply dread_eq, tagged_header in E as (r & h & E). exact (H _ _ E).
  - destruct E as [[E|(u & l & St & _ & Hl)] _]; [discriminate|].
    destruct (starts_header_of der _ u l Hi St Hl) as (_ & r & h & E & _). exact (H _ _ E).
Qed.

Lemma tagged_optional_reads {A} der (g : tagging) (P : parser A) i rem o :
  bytes_ok i ->
  (tagged_optional (header_of der) (tg_num g) (parse_of der (tagged_parser g P)) i = Ok (rem, o) <->
   optional_read (absent der [tg_num g]) (fun i m x => comes true [tg_num g] i /\ dread der (tagged_parser g P) i m x) i rem o).
Proof.
  intros Hi. unfold tagged_optional. destruct i as [|b i].
  { cbn [blen length N.of_nat N.eqb]. split.
    - intros E. injection E as <- <-. split; [left|]; reflexivity.
    - destruct o as [x|]; [|intros [_ ->]; reflexivity]. intros [(u & l & St & _) _].
      destruct (starts_header u l [] Hi St) as (Hne & _). congruence. }
  destruct (N.eqb_spec (blen (b :: i)) 0) as [H0|_]; [apply blen_zero in H0; discriminate|].
  destruct (header_of der (b :: i)) as [[r h]|e|n|] eqn:Eh; cbn [bind].
  - destruct (header_of_starts der _ r h Hi Eh) as [St Hl]. destruct (N.eqb_spec (h_tag h) (tg_num g)) as [Et|Et].
    + split.
      * intros E. apply bind_ok in E as ([rm x] & E & F). injection F as <- <-. split; [|apply dread_eq; exact E].
        exists (h_tag h), (h_length h). split; [exact St|]. split; [left; congruence|discriminate].
      * destruct o as [x|]; cbn [optional_read].
        { intros [_ E]. apply dread_eq in E. rewrite E. reflexivity. }
        intros [[F|(u & l & St' & Hu & Hl')] _]; [discriminate|].
        destruct (starts_header_of der _ u l Hi St' Hl') as (_ & r' & h' & E' & <- & _). rewrite Eh in E'. injection E' as <- <-.
        exfalso. apply Hu. left. congruence.
    + split.
      * intros E. injection E as <- <-. split; [|reflexivity]. right. exists (h_tag h), (h_length h).
        split; [exact St|]. split; [intros [F|[]]; congruence|exact Hl].
      * destruct o as [x|]; cbn [optional_read].
        { intros [(u & l & St' & [<-|[]] & _) _]. exfalso.
          destruct (starts_header_of false _ _ l Hi St' ltac:(discriminate)) as (_ & r' & h' & E' & T' & _).
          destruct (starts_header_of false _ _ _ Hi St ltac:(discriminate)) as (_ & r2 & h2 & E2 & T2 & _).
          congruence. }
        intros [_ ->]. reflexivity.
  - apply no_header; [exact Hi|congruence|discriminate].
  - apply no_header; [exact Hi|congruence|discriminate].
  - apply no_header; [exact Hi|congruence|discriminate].
Qed.

Lemma parse_rest {A} der (P : parser A) i m x : regular P -> bytes_ok i -> parse_of der P i = Ok (m, x) -> bytes_ok m.
Proof.
  intros [R1 R2] Hi E. destruct der; cbn [parse_of] in E.
  - rewrite R2 in E. change (ps_parse_der (default_parser (ps_accept P) (ps_ber_content P) (ps_der_content P)) i = Ok (m, x)) in E.
    apply (default_parse_der_ok _ _ _ _ _ _ Hi) in E as (a & r & E & _). apply (any_der_object _ _ _ Hi) in E. tauto.
  - rewrite R1 in E. change (ps_parse_ber (default_parser (ps_accept P) (ps_ber_content P) (ps_der_content P)) i = Ok (m, x)) in E.
    apply default_parse_ber_ok in E as (a & r & E & _). apply (any_ber_object _ _ _ Hi) in E. tauto.
Qed.

Lemma tagged_regular {A} g (P : parser A) : regular (tagged_parser g P).
Proof. unfold tagged_parser. destruct (tg_kind g); apply default_regular. Qed.

Lemma field_reads {A B} (p : bytes -> res (bytes * A)) (f : fields B) (R : bytes -> bytes -> A -> Prop) Q v i rem :
  (forall m x, p i = Ok (m, x) <-> R i m x) -> (forall m x, R i m x -> bytes_ok m) ->
  (forall m y, bytes_ok m -> (f m = Ok (rem, y) <-> Q y m rem)) ->
  (field p f i = Ok (rem, v) <-> then_read R Q v i rem).
Proof.
  intros HR Hb HQ. unfold field, then_read. destruct v as [x y]. cbn [fst snd]. split.
  - intros E. apply bind_ok in E as ([m x'] & E & F). apply bind_ok in F as ([r y'] & F & G). injection G as -> -> ->.
    apply HR in E. exists m. split; [exact E|]. apply HQ; [exact (Hb _ _ E)|exact F].
  - intros (m & E & F). pose proof (Hb _ _ E) as Hm. apply HR in E. apply (HQ m y Hm) in F. rewrite E. cbn [bind]. rewrite F. reflexivity.
Qed.

Definition fields_of (der : bool) {A} (fs : dfields A) : fields A := if der then der_of fs else ber_of fs.

Lemma default_reads {A} (d : A) (p : bytes -> res (bytes * option A)) Ab Pr i rem x :
  (forall o, p i = Ok (rem, o) <-> optional_read Ab Pr i rem o) ->
  (with_default d p i = Ok (rem, x) <-> default_read d Ab Pr i rem x).
Proof.
  intros H. unfold with_default, default_read. split.
  - intros E. apply bind_ok in E as ([r o] & E & F). injection F as -> <-. apply H in E. destruct o as [y|].
    + left. exact E.
    + right. destruct E as [E1 E2]. auto.
  - intros [E|(E1 & E2 & ->)].
    + rewrite (proj2 (H (Some x)) E). reflexivity.
    + rewrite (proj2 (H None) (conj E1 E2)). reflexivity.
Qed.

Lemma fields_reads {A} (fs : dfields A) : fields_wf fs -> forall der v i rem, bytes_ok i ->
  (fields_of der fs i = Ok (rem, v) <-> reads_fields der fs v i rem).
Proof.
  assert (HP : forall T (t : dty T), dwf t -> regular (dparser_of t) /\ (forall n, ps_accept (dparser_of t) n = true <-> In n (dtags t))).
  { intros T t Ht. pose proof (proj1 derive_sound T t Ht false) as H. split; [exact (proj1 (so_parser H))|exact (so_accept H)]. }
  assert (HO : forall T (t : dty T) der i m o, dwf t -> bytes_ok i ->
    optional_read (absent der (dtags t)) (untagged_present der t) i m o -> bytes_ok m).
  { intros T t der i m [x|] Ht Hi; cbn [optional_read].
    - intros [_ E]. apply dread_eq in E. exact (parse_rest der _ _ _ _ (proj1 (HP _ t Ht)) Hi E).
    - intros [_ ->]. exact Hi. }
  assert (HT : forall T g (t : dty T) der i m o, bytes_ok i ->
    optional_read (absent der [tg_num g]) (tagged_present der g t) i m o -> bytes_ok m).
  { intros T g t der i m [x|] Hi; cbn [optional_read].
    - intros [_ E]. apply dread_eq in E. exact (parse_rest der _ _ _ _ (tagged_regular g _) Hi E).
    - intros [_ ->]. exact Hi. }
  assert (HD : forall T d Ab (Pr : bytes -> bytes -> T -> Prop) i m x, bytes_ok i ->
    (forall m o, optional_read Ab Pr i m o -> bytes_ok m) -> default_read d Ab Pr i m x -> bytes_ok m).
  { intros T d Ab Pr i m x Hi H [E|(_ & -> & _)]; [exact (H m (Some x) E)|exact Hi]. }
  induction fs as [|A B t fs IH|A B t fs IH|A B d t fs IH|A B g t fs IH|A B g t fs IH|A B g d t fs IH];
    cbn [fields_wf]; intros Hwf der v i rem Hi.
  - destruct v, der; cbn; (split; [intros E; injection E as <-; reflexivity|intros ->; reflexivity]).
  - destruct Hwf as [Ht Hf].
    assert (E : fields_of der (FPlain t fs) = field (parse_of der (dparser_of t)) (fields_of der fs)) by (destruct der; reflexivity).
    rewrite E. apply field_reads.
    + intros m x. symmetry. apply dread_eq.
    + intros m x H. apply dread_eq in H. exact (parse_rest der _ _ _ _ (proj1 (HP _ t Ht)) Hi H).
    + intros m y Hm. apply IH; assumption.
  - destruct Hwf as [Ht Hf].
    assert (E : fields_of der (FOption t fs) = field (parse_of der (option_parser (dparser_of t))) (fields_of der fs)) by (destruct der; reflexivity).
    rewrite E. apply field_reads.
    + intros m x. apply option_reads; [apply HP; exact Ht|apply HP; exact Ht|exact Hi].
    + intros m x. apply HO; assumption.
    + intros m y Hm. apply IH; assumption.
  - destruct Hwf as [Ht Hf].
    assert (E : fields_of der (FDefault d t fs) = field (with_default d (parse_of der (option_parser (dparser_of t)))) (fields_of der fs)) by (destruct der; reflexivity).
    rewrite E. apply field_reads.
    + intros m x. apply default_reads. intros o. apply option_reads; [apply HP; exact Ht|apply HP; exact Ht|exact Hi].
    + intros m x. apply HD; [exact Hi|]. intros m' o. apply HO; assumption.
    + intros m y Hm. apply IH; assumption.
  - destruct Hwf as (_ & Ht & Hf).
    assert (E : fields_of der (FTagged g t fs) = field (parse_of der (tagged_parser g (dparser_of t))) (fields_of der fs)) by (destruct der; reflexivity).
    rewrite E. apply field_reads.
    + intros m x. symmetry. apply dread_eq.
    + intros m x H. apply dread_eq in H. exact (parse_rest der _ _ _ _ (tagged_regular g _) Hi H).
    + intros m y Hm. apply IH; assumption.
  - destruct Hwf as (_ & Ht & Hf).
    assert (E : fields_of der (FTaggedOption g t fs) = field (tagged_optional (header_of der) (tg_num g) (parse_of der (tagged_parser g (dparser_of t)))) (fields_of der fs)) by (destruct der; reflexivity).
    rewrite E. apply field_reads.
    + intros m x. apply tagged_optional_reads. exact Hi.
    + intros m x. apply HT; assumption.
    + intros m y Hm. apply IH; assumption.
  - destruct Hwf as (_ & Ht & Hf).
    assert (E : fields_of der (FTaggedDefault g d t fs) = field (with_default d (tagged_optional (header_of der) (tg_num g) (parse_of der (tagged_parser g (dparser_of t))))) (fields_of der fs)) by (destruct der; reflexivity).
    rewrite E. apply field_reads.
    + intros m x. apply default_reads. intros o. apply tagged_optional_reads. exact Hi.
    + intros m x. apply HD; [exact Hi|]. intros m' o. apply HT; assumption.
    + intros m y Hm. apply IH; assumption.
Qed.

(** A struct is read exactly from a constructed object of any class with tag number 16 (17 for SET) whose
    contents start with the components; what follows them is ignored. *)
Theorem C66_struct_accept {A} (set : bool) (fs : dfields A) (i rem : bytes) (v : A) :
  fields_wf fs -> bytes_ok i ->
  let P := dparser_of (DStruct set fs) in let tag := if set then 17 else 16 in
  (ps_parse_ber P i = Ok (rem, v) <->
     exists c content r, starts_with_ber_object c true tag content i rem /\ reads_fields false fs v content r)
  /\ (ps_parse_der P i = Ok (rem, v) <->
     exists c content r, starts_with_object c true tag content i rem /\ reads_fields true fs v content r).
Proof.
  intros Hwf Hi P tag.
  assert (Et : forall n, is_tag (struct_tag set) n = true <-> n = tag).
  { intros n. rewrite is_tag_iff. unfold tag. destruct set; reflexivity. }
  assert (EC : forall f h d r, struct_content f h d = Ok (r, v) <-> h_constructed h = true /\ f d = Ok (r, v)).
  { intros f h d r. unfold struct_content. rewrite <- assert_constructed_ok.
    destruct (assert_constructed h) as [[]| | |]; cbn [bind]; try (split; [discriminate|intros (E & _); discriminate]). tauto. }
  unfold P. cbn [dparser_of]. unfold struct_parser. split.
  - rewrite default_parse_ber_ok. split.
    + intros (a & r & E & T & C). apply EC in C as [K C]. apply Et in T.
      destruct (any_ber_object _ _ _ Hi E) as (O & Hd & _). rewrite K, T in O.
      exists (h_class (any_header a)), (any_data a), r. split; [exact O|]. apply (fields_reads fs Hwf false v _ _ Hd); exact C.
    + intros (c & d & r & O & E). destruct (ber_object_any _ _ _ _ _ _ Hi O) as (h & Ea & Cl & K & Ta).
      exists (mk_any h d), r. split; [exact Ea|]. split; [apply Et; exact Ta|]. apply EC. split; [exact K|].
      destruct (any_ber_object _ _ _ Hi Ea) as (_ & Hd & _). apply (fields_reads fs Hwf false v _ _ Hd); exact E.
  - rewrite default_parse_der_ok by exact Hi. split.
    + intros (a & r & E & T & C). apply EC in C as [K C]. apply Et in T.
      destruct (any_der_object _ _ _ Hi E) as (O & Hd & _). rewrite K, T in O.
      exists (h_class (any_header a)), (any_data a), r. split; [exact O|]. apply (fields_reads fs Hwf true v _ _ Hd); exact C.
    + intros (c & d & r & O & E). destruct (der_object_any _ _ _ _ _ _ Hi O) as (h & Ea & Cl & K & Ta).
      exists (mk_any h d), r. split; [exact Ea|]. split; [apply Et; exact Ta|]. apply EC. split; [exact K|].
      destruct (any_der_object _ _ _ Hi Ea) as (_ & Hd & _). apply (fields_reads fs Hwf true v _ _ Hd); exact E.
Qed.
Print Assumptions C66_struct_accept.

(** ** C67: CHOICE *)

Definition result_map {A B} (f : A -> B) (r : res (bytes * A)) : res (bytes * B) :=
  match r with Ok (rem, x) => Ok (rem, f x) | Err e => Err e | Incomplete n => Incomplete n | Panic => Panic end.

(** Which variants take an object: by the number of the variant, or by the tag of the variant type. *)
Definition takes {A} (k : option tag_kind) (n : N) (t : dty A) (u : N) : Prop :=
  match k with Some _ => u = n | None => In u (dtags t) end.

(** How it is then read: as an explicitly or implicitly tagged value with the class found (see the
    refutation), or as a value of the variant type. *)
Definition variant_parser {A} (k : option tag_kind) (c : class) (n : N) (t : dty A) : parser A :=
  match k with
  | Some KExplicit => explicit_parser c n (dparser_of t)
  | Some KImplicit => implicit_parser c n (dparser_of t)
  | None => dparser_of t
  end.

Lemma parse_of_default {T} der accept (b d : header -> bytes -> res (bytes * T)) i :
  parse_of der (default_parser accept b d) i =
  if der then parse_der (mk_codec accept b d (default_try_from accept b) (fun _ => Ok tt)) i
  else parse_ber (mk_codec accept b d (default_try_from accept b) (fun _ => Ok tt)) i.
Proof. destruct der; reflexivity. Qed.

(** Two parsers with default methods that agree on the header at hand. *)
Lemma default_agree {A B} (f : A -> B) accept1 (b1 d1 : header -> bytes -> res (bytes * A)) accept2 (b2 d2 : header -> bytes -> res (bytes * B)) der i h r :
  header_parse_ber i = Ok (r, h) -> accept1 (h_tag h) = accept2 (h_tag h) ->
  (accept2 (h_tag h) = true -> forall x, result_map f (b1 h x) = b2 h x /\ result_map f (d1 h x) = d2 h x) ->
  result_map f (parse_of der (default_parser accept1 b1 d1) i) = parse_of der (default_parser accept2 b2 d2) i.
Proof.
  intros E Ha H. destruct der; cbn [parse_of default_parser codec_parser ps_parse_ber ps_parse_der];
    unfold parse_der, parse_ber, header_parse_der, header_parse_ber; unfold header_parse_ber in E; rewrite E;
    cbn [bind accept_tag ber_content der_content].
  - destruct (is_definite (h_length h)); [|reflexivity]. cbn [bind]. destruct (h_length h) as [l|]; [|reflexivity].
    rewrite Ha. destruct (accept2 (h_tag h)); [|reflexivity]. destruct (take l r) as [[r2 x]| | |]; try reflexivity. cbn [bind].
    destruct (H eq_refl x) as [_ <-]. destruct (d1 h x) as [[r3 y]| | |]; reflexivity.
  - rewrite Ha. destruct (accept2 (h_tag h)); [|reflexivity].
    destruct (ber_object_content h r MAX_RECURSION) as [[r2 x]| | |]; try reflexivity. cbn [bind].
    destruct (H eq_refl x) as [<- _]. destruct (b1 h x) as [[r3 y]| | |]; reflexivity.
Qed.

(** An object is read by the first variant that takes it, or not at all. *)
Theorem C67_choice_reads {A B} (k : option tag_kind) (n : N) (t : dty A) (vs : dvariants B)
    c f u l (idb lenb r : bytes) (der : bool) :
  dwf t -> bytes_ok r -> readable_header c f u l idb lenb ->
  let i := idb ++ lenb ++ r in let tag := u mod 2 ^ 32 in
  (takes k n t tag ->
     parse_of der (dparser_of (DChoice k (VCons n t vs))) i = result_map inl (parse_of der (variant_parser k c n t) i))
  /\ (~ takes k n t tag ->
     parse_of der (dparser_of (DChoice k (VCons n t vs))) i = result_map inr (parse_of der (dparser_of (DChoice k vs)) i)).
Proof.
  intros Hwf Hr HR i tag. pose proof (proj1 derive_sound A t Hwf false) as S.
  pose proof (parse_header_at c f u l idb lenb r Hr HR) as Eh.
  assert (Ht : h_tag (hdr c f u l idb lenb) = tag) by reflexivity.
  assert (Hc : h_class (hdr c f u l idb lenb) = c) by reflexivity.
  set (h := hdr c f u l idb lenb) in *.
  assert (RM : forall T U (g : T -> U) (q : res (bytes * T)), (let* (rem, x) := q in Ok (rem, g x)) = result_map g q)
    by (intros T U g [[rem x]| | |]; reflexivity).
  assert (Hn : k <> None -> forall b : bool, (takes k n t tag -> (tag =? n) = true) /\ (~ takes k n t tag -> (tag =? n) = false)).
  { intros Hk _. destruct k; [|congruence]. cbn [takes]. rewrite N.eqb_eq, N.eqb_neq. tauto. }
  assert (HA : (takes None n t tag -> ps_accept (dparser_of t) tag = true) /\ (~ takes None n t tag -> ps_accept (dparser_of t) tag = false)).
  { cbn [takes]. rewrite <- (so_accept S). destruct (ps_accept (dparser_of t) tag); intuition congruence. }
  set (P := dparser_of t) in *.
  assert (E1 : dparser_of (DChoice k (VCons n t vs)) = default_parser
    (fun x => (match k with Some _ => x =? n | None => ps_accept P x end) || accept_of k vs x)
    (choice_content k (match k with
       | Some kd => tagged_variant kd n (ps_parse_ber P) (ps_ber_content P) (ber_variants k vs)
       | None => untagged_variant (ps_accept P) (ps_ber_content P) (ber_variants k vs) end))
    (choice_content k (match k with
       | Some kd => tagged_variant kd n (ps_parse_der P) (ps_der_content P) (der_variants k vs)
       | None => untagged_variant (ps_accept P) (ps_der_content P) (der_variants k vs) end))) by reflexivity.
  assert (E2 : dparser_of (DChoice k vs) = default_parser (accept_of k vs) (choice_content k (ber_variants k vs))
    (choice_content k (der_variants k vs))) by reflexivity.
  rewrite E1, E2. clear E1 E2. generalize (accept_of k vs), (ber_variants k vs), (der_variants k vs). intros AC BV DV.
  split; intros Tk; symmetry; unfold i.
  - destruct k as [[]|]; cbn [variant_parser]; fold P.
    + destruct (Hn ltac:(discriminate) true) as [Hy _]. specialize (Hy Tk).
      apply (default_agree inl _ _ _ _ _ _ der _ h r Eh).
      * rewrite Ht. unfold is_tag. rewrite Hy. reflexivity.
      * intros _ x. unfold explicit_content, choice_content, tagged_variant.
        rewrite Ht, Hy. apply N.eqb_eq in Hy.
        rewrite (proj2 (check_class_ok h c) Hc), (proj2 (check_tag_ok h n) (eq_trans Ht Hy)).
        destruct (assert_constructed h) as [[]| | |]; cbn [bind]; split; try reflexivity; rewrite RM; reflexivity.
    + destruct (Hn ltac:(discriminate) true) as [Hy _]. specialize (Hy Tk).
      apply (default_agree inl _ _ _ _ _ _ der _ h r Eh).
      * rewrite Ht. unfold is_tag. rewrite Hy. reflexivity.
      * intros _ x. unfold implicit_content, choice_content, tagged_variant.
        rewrite Ht, Hy. rewrite (proj2 (check_class_ok h c) Hc). cbn [bind]. rewrite !RM. auto.
    + destruct HA as [Hy _]. specialize (Hy Tk). destruct (proj1 (so_parser S)) as [R1 R2].
      assert (ER : parse_of der P (idb ++ lenb ++ r) =
        parse_of der (default_parser (ps_accept P) (ps_ber_content P) (ps_der_content P)) (idb ++ lenb ++ r)).
      { destruct der; cbn [parse_of]; [rewrite R2|rewrite R1]; reflexivity. }
      rewrite ER. apply (default_agree inl _ _ _ _ _ _ der _ h r Eh).
      * rewrite Ht, Hy. reflexivity.
      * intros _ x. unfold choice_content, untagged_variant. rewrite Ht, Hy, !RM. auto.
  - destruct k as [kd|].
    + destruct (Hn ltac:(discriminate) true) as [_ Hy]. specialize (Hy Tk).
      apply (default_agree inr _ _ _ _ _ _ der _ h r Eh).
      * rewrite Ht, Hy. reflexivity.
      * intros _ x. unfold choice_content, tagged_variant.
        rewrite Ht, Hy. destruct kd; [destruct (assert_constructed h) as [[]| | |]; cbn [bind]|]; rewrite ?RM; auto.
    + destruct HA as [_ Hy]. specialize (Hy Tk).
      apply (default_agree inr _ _ _ _ _ _ der _ h r Eh).
      * rewrite Ht, Hy. reflexivity.
      * intros _ x. unfold choice_content, untagged_variant. rewrite Ht, Hy, !RM. auto.
Qed.
Print Assumptions C67_choice_reads.

(** No variant at all. *)
Theorem C67_choice_none (k : option tag_kind) c f u l (idb lenb r : bytes) (der : bool) :
  bytes_ok r -> readable_header c f u l idb lenb -> (der = true -> l <> Indefinite) ->
  parse_of der (dparser_of (DChoice k VNil)) (idb ++ lenb ++ r) = Err EUnexpectedTag.
Proof.
  intros Hr HR Hl. pose proof (parse_header_at c f u l idb lenb r Hr HR) as Eh.
  destruct der; cbn [parse_of dparser_of]; unfold choice_parser;
    cbn [default_parser codec_parser ps_parse_ber ps_parse_der accept_of]; unfold parse_der, parse_ber, header_parse_der;
    unfold header_parse_ber in *; rewrite Eh; cbn [bind accept_tag]; [|reflexivity].
  destruct l as [n|]; [reflexivity|]. exfalso. exact (Hl eq_refl eq_refl).
Qed.
Print Assumptions C67_choice_none.

(** Values are written and read back: C65 for [DChoice], here for the two tagged forms. *)
Definition tagged_choice (k : tag_kind) :=
  DChoice (Some k) (VCons 0 (DTy (TBase BBool)) (VCons 1 (DTy (TBase BOctets)) (VCons 9 inner_type VNil))).
Example C67_case :
  dwf (tagged_choice KExplicit) /\ writable (tagged_choice KExplicit)
  /\ dwf (tagged_choice KImplicit) /\ writable (tagged_choice KImplicit)
  /\ to_vec (wr_der (dwriter_of (tagged_choice KExplicit)) (inr (inl [7]))) = Ok [0xa1; 3; 4; 1; 7]
  /\ to_vec (wr_der (dwriter_of (tagged_choice KImplicit)) (inr (inl [7]))) = Ok [0x81; 1; 7]
  /\ to_vec (wr_der (dwriter_of (tagged_choice KImplicit)) (inr (inr (inl (3, (inl true, tt)))))) = Ok [0xa9; 6; 10; 1; 3; 1; 1; 0xff]
  /\ ps_parse_der (dparser_of (tagged_choice KImplicit)) [0xa9; 6; 10; 1; 3; 1; 1; 0xff] = Ok ([], inr (inr (inl (3, (inl true, tt)))))
  /\ ps_parse_der (dparser_of (tagged_choice KImplicit)) [0x82; 1; 7] = Err EUnexpectedTag.
Proof.
  assert (H : forall k, NoDup (vtags (Some k) (VCons 0 (DTy (TBase BBool)) (VCons 1 (DTy (TBase BOctets)) (VCons 9 inner_type VNil))))).
  { intros k. cbn. repeat constructor; cbn; intuition lia. }
  assert (I : dwf inner_type) by (cbn; repeat split; try lia; repeat constructor; cbn; try lia; intuition (try lia; try discriminate)).
  split; [split; [apply H|]; cbn -[inner_type]; repeat split; try lia; apply I|]. split; [cbn; tauto|].
  split; [split; [apply H|]; cbn -[inner_type]; repeat split; try lia; apply I|]. split; [cbn; tauto|].
  repeat split; vm_compute; reflexivity.
Qed.

(** The class is not looked at, so that a BOOLEAN and an OCTET STRING are read as context-specific tags;
    and an implicit tag cannot stand over a CHOICE. *)
Theorem C67_class_refuted :
  ps_parse_der (dparser_of (tagged_choice KImplicit)) [1; 1; 0xff] = Ok ([], inr (inl [0xff]))
  /\ ps_parse_der (dparser_of (tagged_choice KExplicit)) [0x21; 3; 4; 1; 7] = Ok ([], inr (inl [7]))
  /\ ps_parse_der (dparser_of choice_type) [0x81; 1; 0xff] = Ok ([], inl true).
Proof. repeat split; vm_compute; reflexivity. Qed.
Print Assumptions C67_class_refuted.

Theorem C67_implicit_refuted :
  let t := DStruct false (FTagged (implicit_ctx 0) choice_type FNil) in
  to_vec (wr_der (dwriter_of t) (inl true, tt)) = Ok [0x30; 3; 0x80; 1; 0xff]
  /\ ps_parse_der (dparser_of t) [0x30; 3; 0x80; 1; 0xff] = Err EUnexpectedTag.
Proof. split; vm_compute; reflexivity. Qed.
Print Assumptions C67_implicit_refuted.

(** Numbers of the variants: those given, others one more than the variant before; no two alike. *)
Inductive numbered : N -> list (option N) -> list N -> Prop :=
| num_nil n : numbered n [] []
| num_given n m vs ns : numbered (m + 1) vs ns -> numbered n (Some m :: vs) (m :: ns)
| num_next n vs ns : numbered (n + 1) vs ns -> numbered n (None :: vs) (n :: ns).

Lemma choice_tags_from_iff vs : forall cur acc ns, NoDup acc ->
  (choice_tags_from cur acc vs = Ok ns <->
   exists ms, ns = acc ++ ms /\ numbered cur vs ms /\ NoDup ns /\ Forall (fun m => m <> 2 ^ 32 - 1) ms).
Proof.
  induction vs as [|v vs IH]; intros cur acc ns Hd; cbn [choice_tags_from].
  - split.
    + intros E. injection E as <-. exists []. rewrite app_nil_r. repeat split; [constructor|exact Hd|constructor].
    + intros (ms & -> & H & _). inversion_clear H. rewrite app_nil_r. reflexivity.
  - set (tag := match v with Some t => t | None => cur end).
    assert (HN : forall ms, numbered cur (v :: vs) ms <-> exists ms', ms = tag :: ms' /\ numbered (tag + 1) vs ms').
    { intros ms. unfold tag. split.
      - intros H. inversion H; subst; eexists; (split; [reflexivity|assumption]).
      - intros (ms' & -> & H). destruct v; constructor; exact H. }
    destruct (existsb (N.eqb tag) acc) eqn:Ex.
    + split; [discriminate|]. intros (ms & -> & H & Hn & _). apply HN in H as (ms' & -> & _). exfalso.
      apply existsb_exists in Ex as (x & Hx & E). apply N.eqb_eq in E. subst x.
      apply NoDup_remove_2 in Hn. apply Hn, in_or_app. auto.
    + destruct (N.eqb_spec tag (2 ^ 32 - 1)) as [E|E].
      * split; [discriminate|]. intros (ms & -> & H & _ & Hf). apply HN in H as (ms' & -> & _). inversion_clear Hf. congruence.
      * assert (Hd' : NoDup (acc ++ [tag])).
        { apply (Permutation_NoDup (l := tag :: acc)).
          - apply Permutation_cons_append.
          - constructor; [|exact Hd]. intros F. assert (X : existsb (N.eqb tag) acc = true).
            { apply existsb_exists. exists tag. split; [exact F|apply N.eqb_refl]. }
            congruence. }
        rewrite (IH (tag + 1) (acc ++ [tag]) ns Hd'). split.
        { intros (ms & -> & H & Hn & Hf). exists (tag :: ms). rewrite <- app_assoc in *. split; [reflexivity|].
          split; [apply HN; eauto|]. split; [exact Hn|]. constructor; assumption. }
        { intros (ms & -> & H & Hn & Hf). apply HN in H as (ms' & -> & H). inversion_clear Hf.
          exists ms'. rewrite <- app_assoc. auto. }
Qed.

Theorem C67_choice_numbers vs ns :
  choice_tags vs = Ok ns <-> numbered 0 vs ns /\ NoDup ns /\ Forall (fun m => m <> 2 ^ 32 - 1) ns.
Proof.
  unfold choice_tags. rewrite choice_tags_from_iff by constructor. cbn [app]. split.
  - intros (ms & -> & H). exact H.
  - intros H. exists ns. auto.
Qed.
Print Assumptions C67_choice_numbers.

Example C67_numbers_case : choice_tags [None; Some 4; None; Some 1] = Ok [0; 4; 5; 1]
  /\ choice_tags [Some 1; Some 0; None] = Err EUnsupported.
Proof. split; vm_compute; reflexivity. Qed.

(** ** C68: ENUMERATED *)

(** Accepted exactly: tag number 10 of any class, primitive, an unsigned 32-bit integer that is one of the
    declared values (in DER, in shortest form). *)
Theorem C68_enum_accept (ds : list N) (i rem : bytes) (d : N) :
  Forall (fun d => d < 2 ^ 32) ds -> bytes_ok i ->
  (ps_parse_ber (dparser_of (DEnum ds)) i = Ok (rem, d) <->
     exists c content, starts_with_ber_object c false 10 content i rem /\ twos content = Z.of_N d /\ In d ds)
  /\ (ps_parse_der (dparser_of (DEnum ds)) i = Ok (rem, d) <->
     exists c content, starts_with_object c false 10 content i rem /\ shortest content
       /\ twos content = Z.of_N d /\ In d ds).
Proof.
  intros Hds Hi. rewrite Forall_forall in Hds.
  assert (EU : forall x, In x ds -> in_unsigned 4 (Z.of_N x)).
  { intros x Hx. specialize (Hds x Hx). unfold in_unsigned. change (2 ^ (8 * Z.of_nat 4))%Z with (2 ^ 32)%Z. lia. }
  assert (EX : forall v, existsb (N.eqb (Z.to_N v)) ds = true <-> In (Z.to_N v) ds).
  { intros v. rewrite existsb_exists. split.
    - intros (x & Hx & E). apply N.eqb_eq in E. congruence.
    - intros H. exists (Z.to_N v). split; [exact H|apply N.eqb_refl]. }
  assert (EP : forall h, assert_primitive h = Ok tt <-> h_constructed h = false).
  { intros h. unfold assert_primitive. destruct (h_constructed h); split; congruence. }
  assert (EC : forall (der : bool) h b r, bytes_ok b ->
    (denum_content ds (if der then der_content enum_codec else ber_content enum_codec) h b = Ok (r, d) <->
     h_constructed h = false /\ r = [] /\ (der = true -> shortest b) /\ twos b = Z.of_N d /\ In d ds)).
  { intros der h b r Hb. unfold denum_content. rewrite <- EP.
    destruct (assert_primitive h) as [[]| | |] eqn:Ep; cbn [bind]; try (split; [discriminate|intros (E & _); discriminate]).
    assert (X : forall v r, (if der then der_content enum_codec else ber_content enum_codec) h b = Ok (r, v) <->
                r = [] /\ v = twos b /\ in_unsigned 4 v /\ (der = true -> shortest b)).
    { intros v r'. apply EP in Ep.
      assert (Y : (if der then der_content enum_codec else ber_content enum_codec) h b
              = if der then uint_der_content 4 h b else uint_ber_content 4 h b).
      { destruct der; cbn [enum_codec der_content ber_content]; unfold enum_der_content, enum_ber_content, assert_primitive;
          rewrite Ep; reflexivity. }
      rewrite Y. destruct der.
      - rewrite (uint_der_content_ok 4 h b r' v) by (lia || assumption). intuition.
      - rewrite (uint_ber_content_ok 4 h b r' v) by (lia || assumption). intuition discriminate. }
    split.
    - intros E. apply bind_ok in E as ([r' v] & E & F). apply X in E as (-> & -> & U & Sh).
      destruct (existsb (N.eqb (Z.to_N (twos b))) ds) eqn:Ex; [|discriminate]. injection F as <- <-.
      apply EX in Ex. unfold in_unsigned in U. split; [reflexivity|]. split; [reflexivity|]. split; [exact Sh|]. split; [lia|exact Ex].
    - intros (_ & -> & Sh & Et & Hd). rewrite (proj2 (X (twos b) [])); [|rewrite Et; auto].
      cbn [bind]. rewrite Et, N2Z.id. rewrite (proj2 (existsb_exists _ ds)); [reflexivity|]. exists d. split; [exact Hd|apply N.eqb_refl]. }
  cbn [dparser_of]. unfold denum_parser. split.
  - rewrite default_parse_ber_ok. split.
    + intros (a & r & E & T & C). destruct (any_ber_object _ _ _ Hi E) as (O & Hd & _).
      apply (EC false _ _ _ Hd) in C as (K & _ & _ & C). apply is_tag_iff in T. rewrite K, T in O.
      exists (h_class (any_header a)), (any_data a). split; [exact O|exact C].
    + intros (c & b & O & E). destruct (ber_object_any _ _ _ _ _ _ Hi O) as (h & Ea & Cl & K & Ta).
      exists (mk_any h b), []. split; [exact Ea|]. split; [apply is_tag_iff; exact Ta|].
      destruct (any_ber_object _ _ _ Hi Ea) as (_ & Hd & _). apply (EC false _ _ _ Hd). split; [exact K|].
      split; [reflexivity|]. split; [discriminate|exact E].
  - rewrite default_parse_der_ok by exact Hi. split.
    + intros (a & r & E & T & C). destruct (any_der_object _ _ _ Hi E) as (O & Hd & _).
      apply (EC true _ _ _ Hd) in C as (K & _ & Sh & C). apply is_tag_iff in T. rewrite K, T in O.
      exists (h_class (any_header a)), (any_data a). split; [exact O|]. split; [exact (Sh eq_refl)|exact C].
    + intros (c & b & O & Sh & E). destruct (der_object_any _ _ _ _ _ _ Hi O) as (h & Ea & Cl & K & Ta).
      exists (mk_any h b), []. split; [exact Ea|]. split; [apply is_tag_iff; exact Ta|].
      destruct (any_der_object _ _ _ Hi Ea) as (_ & Hd & _). apply (EC true _ _ _ Hd). split; [exact K|].
      split; [reflexivity|]. split; [intros _; exact Sh|exact E].
Qed.
Print Assumptions C68_enum_accept.

(** Every declared value is written in the one DER way. *)
Theorem C68_enum_roundtrip (ds : list N) (d : N) :
  Forall (fun d => d < 2 ^ 32) ds -> In d ds ->
  exists enc, encodes (enumerated_syntax ds) d enc
    /\ to_vec (wr_ber (dwriter_of (DEnum ds)) d) = Ok enc /\ to_vec (wr_der (dwriter_of (DEnum ds)) d) = Ok enc
    /\ dreads (DEnum ds) enc d.
Proof.
  intros Hds Hd. pose proof (proj1 (Forall_forall _ _) Hds d Hd) as Hd'. cbn beta in Hd'.
  assert (U : in_unsigned 4 (Z.of_N d)) by (unfold in_unsigned; change (2 ^ (8 * Z.of_nat 4))%Z with (2 ^ 32)%Z; lia).
  destruct (integer_from_uint_ok 4 (Z.of_N d) ltac:(lia) U) as (cb & E & Hs & Ht & Hb & Hl).
  assert (Hn : blen cb <= 5) by (unfold blen; lia).
  assert (EN : encodes (enumerated_syntax ds) d ([10] ++ [blen cb] ++ cb)).
  { exists Universal, false, 10, cb, [10], [blen cb]. split; [reflexivity|]. split; [split; [exact Hd|split; auto]|].
    split; [apply (ids_low Universal false 10); lia|]. split; [apply (los_short (blen cb)); lia|reflexivity]. }
  exists ([10] ++ [blen cb] ++ cb). split; [exact EN|].
  assert (Hk : blen ([10] ++ [blen cb] ++ cb) < 2 ^ 24) by (rewrite !blen_app; change (blen [10]) with 1; change (blen [blen cb]) with 1; lia).
  destruct (C65_derived_roundtrip_partial (DEnum ds) d _ Hds I EN Hk) as (R1 & R2 & _ & _ & R3). auto.
Qed.
Print Assumptions C68_enum_roundtrip.

(** Values given to the variants. *)
Theorem C68_enum_values vs ns :
  enum_values vs = Ok ns <-> numbered 0 vs ns /\ Forall (fun m => m <> 2 ^ 32 - 1) ns.
Proof.
  unfold enum_values. generalize 0 as cur. revert ns. induction vs as [|v vs IH]; intros ns cur; cbn [enum_values_from].
  - split; [intros E; injection E as <-; split; constructor|]. intros [H _]. inversion_clear H. reflexivity.
  - set (d := match v with Some t => t | None => cur end).
    assert (HN : forall ms, numbered cur (v :: vs) ms <-> exists ms', ms = d :: ms' /\ numbered (d + 1) vs ms').
    { intros ms. unfold d. split.
      - intros H. inversion H; subst; eexists; (split; [reflexivity|assumption]).
      - intros (ms' & -> & H). destruct v; constructor; exact H. }
    destruct (N.eqb_spec d (2 ^ 32 - 1)) as [E|E].
    + split; [discriminate|]. intros [H Hf]. apply HN in H as (ms' & -> & _). inversion_clear Hf. congruence.
    + split.
      * intros F. apply bind_ok in F as (ms & F & G). injection G as <-. apply IH in F as [F1 F2].
        split; [apply HN; eauto|constructor; assumption].
      * intros [H Hf]. apply HN in H as (ms' & -> & H). inversion_clear Hf. rewrite (proj2 (IH ms' (d + 1))); [reflexivity|auto].
Qed.
Print Assumptions C68_enum_values.

Example C68_case : ps_parse_der (dparser_of (DEnum [0; 3; 200])) [10; 2; 0; 200; 5] = Ok ([5], 200)
  /\ ps_parse_der (dparser_of (DEnum [0; 3; 200])) [10; 1; 4] = Err EUnexpectedTag
  /\ ps_parse_der (dparser_of (DEnum [0; 3; 200])) [10; 2; 0; 3] <> Ok ([], 3)
  /\ ps_parse_ber (dparser_of (DEnum [0; 3; 200])) [10; 2; 0; 3] = Ok ([], 3)
  /\ to_vec (wr_der (dwriter_of (DEnum [0; 3; 200])) 200) = Ok [10; 2; 0; 200]
  /\ enum_values [None; Some 3; None; Some 200] = Ok [0; 3; 4; 200].
Proof. repeat split; try (vm_compute; reflexivity). vm_compute. discriminate. Qed.

(** Refuted parts of C66: data after the components is ignored, also in DER; a SET is only read in the order
    of its declaration; the class of the object is not looked at; an optional component is recognised by its
    tag number alone, whatever the class, so that the BOOLEAN that follows one tagged [1] is taken for it;
    DER accepts a component that has its default value. *)
Definition bool_type := DStruct false (FPlain (DTy (TBase BBool)) FNil).
Definition set_type := DStruct true (FPlain (DTy (TBase BBool)) (FPlain (DTy (TBase (BUint 1))) FNil)).
Definition optional_type := DStruct false (FTaggedOption (explicit_ctx 1) (DTy (TBase BOctets)) (FPlain (DTy (TBase BBool)) FNil)).
Theorem C66_reading_refuted :
  ps_parse_der (dparser_of bool_type) [0x30; 6; 1; 1; 0xff; 2; 1; 0] = Ok ([], (true, tt))
  /\ ps_parse_der (dparser_of set_type) [0x31; 6; 1; 1; 0xff; 2; 1; 5] = Ok ([], (true, (5%Z, tt)))
  /\ ps_parse_ber (dparser_of set_type) [0x31; 6; 2; 1; 5; 1; 1; 0xff] = Err EUnexpectedTag
  /\ ps_parse_der (dparser_of bool_type) [0x70; 3; 1; 1; 0xff] = Ok ([], (true, tt))
  /\ (exists e, ps_parse_ber (dparser_of optional_type) [0x30; 3; 1; 1; 0xff] = Err e)
  /\ ps_parse_der (dparser_of default_uint) [0x30; 5; 0xa0; 3; 2; 1; 0] = Ok ([], (0%Z, tt)).
Proof.
  do 4 (split; [vm_compute; reflexivity|]). split; [|vm_compute; reflexivity].
  exists EConstructExpected. vm_compute. reflexivity.
Qed.
Print Assumptions C66_reading_refuted.

(** A value with an absent default component and an absent OPTIONAL one. *)
Definition version_type :=
  DStruct false (FTaggedDefault (explicit_ctx 0) 0%Z (DTy (TBase (BUint 1))) (FPlain (DTy (TBase (BInt 4)))
    (FOption (DTy (TBase BBool)) FNil))).
Example C66_case : dwf version_type /\ has_dlegacy version_type
  /\ encodes (dsyntax_of false version_type) (0%Z, (5%Z, (None, tt))) [0x30; 3; 2; 1; 5]
  /\ ps_parse_der (dparser_of version_type) [0x30; 3; 2; 1; 5; 77] = Ok ([77], (0%Z, (5%Z, (None, tt))))
  /\ lg_from_der (dlegacy_of version_type) [0x30; 3; 2; 1; 5; 77] = Ok ([77], (0%Z, (5%Z, (None, tt))))
  /\ ps_parse_der (dparser_of version_type) [0x30; 11; 0xa0; 3; 2; 1; 2; 2; 1; 5; 1; 1; 0] = Ok ([], (2%Z, (5%Z, (Some false, tt))))
  /\ reads_fields true (FOption (DTy (TBase BBool)) FNil) (None, tt) [] [].
Proof.
  split; [cbn; unfold tagging_ok; cbn; repeat split; lia|]. split; [cbn; tauto|].
  split; [|split; [vm_compute; reflexivity|split; [vm_compute; reflexivity|split; [vm_compute; reflexivity|]]]].
  - exists Universal, true, 16, [2; 1; 5], [0x30], [3]. split; [reflexivity|].
    split; [|split; [apply (ids_low Universal true 16); lia|split; [apply (los_short 3); lia|reflexivity]]].
    right. split; [reflexivity|]. split.
    + exists [2; 1; 5], []. split; [|split; [split; [reflexivity|]|reflexivity]].
      * exists Universal, false, 2, [5], [2], [1]. split; [reflexivity|].
        split; [|split; [apply (ids_low Universal false 2); lia|split; [apply (los_short 1); lia|reflexivity]]].
        split; [unfold in_signed; cbn; lia|]. split; [repeat constructor; lia|]. split; [|reflexivity].
        split; [discriminate|]. intros [|b l] _ H _; [congruence|cbn; lia].
      * intros (c & k & t & idb & rest & _ & H & E). inversion H; subst; discriminate.
    + intros (c & k & t & idb & rest & [<-|[]] & H & E). inversion H; subst.
      * destruct c, k; discriminate.
      * destruct c, k; discriminate.
  - exists []. split; [|reflexivity]. split; [left|]; reflexivity.
Qed.

(** ** C69: the older traits of SEQUENCE and SET *)

Definition lread {A} (der : bool) (L : legacy A) (i rem : bytes) (v : A) : Prop :=
  (if der then lg_from_der L i else lg_from_ber L i) = Ok (rem, v).
Definition untagged_lpresent {A} (der : bool) (t : dty A) (i m : bytes) (x : A) : Prop :=
  ~ absent der (dtags t) i /\ lread der (dlegacy_of t) i m x.
Definition tagged_lpresent {A} (der : bool) (g : tagging) (t : dty A) (i m : bytes) (x : A) : Prop :=
  comes true [tg_num g] i /\ lread der (tagged_legacy g (dlegacy_of t)) i m x.

Fixpoint lreads_fields (der : bool) {A} (fs : dfields A) : A -> bytes -> bytes -> Prop :=
  match fs with
  | FNil => fun _ i rem => rem = i
  | FPlain t fs => then_read (lread der (dlegacy_of t)) (lreads_fields der fs)
  | FOption t fs => then_read (optional_read (absent der (dtags t)) (untagged_lpresent der t)) (lreads_fields der fs)
  | FDefault d t fs => then_read (default_read d (absent der (dtags t)) (untagged_lpresent der t)) (lreads_fields der fs)
  | FTagged g t fs => then_read (lread der (tagged_legacy g (dlegacy_of t))) (lreads_fields der fs)
  | FTaggedOption g t fs =>
      then_read (optional_read (absent der [tg_num g]) (tagged_lpresent der g t)) (lreads_fields der fs)
  | FTaggedDefault g d t fs =>
      then_read (default_read d (absent der [tg_num g]) (tagged_lpresent der g t)) (lreads_fields der fs)
  end.

Definition from_of {T} (der : bool) (L : legacy T) : bytes -> res (bytes * T) := if der then lg_from_der L else lg_from_ber L.
Lemma lread_eq {T} der (L : legacy T) i rem v : lread der L i rem v <-> from_of der L i = Ok (rem, v).
Proof. destruct der; reflexivity. Qed.

(** Readers that start by reading one object. *)
Definition object_first {T} (der : bool) (p : bytes -> res (bytes * T)) : Prop :=
  forall i m x, bytes_ok i -> p i = Ok (m, x) -> bytes_ok m /\ exists r h, header_of der i = Ok (r, h).

Lemma any_first (der : bool) i r a : bytes_ok i -> (if der then parse_der_any i else parse_ber_any i) = Ok (r, a) ->
  bytes_ok r /\ exists r' h, header_of der i = Ok (r', h).
Proof.
  intros Hi E. destruct der.
  - split; [apply (any_der_object _ _ _ Hi) in E; tauto|]. unfold parse_der_any in E. apply bind_ok in E as ([r' h] & E & _).
    exists r', h. exact E.
  - split; [apply (any_ber_object _ _ _ Hi) in E; tauto|]. unfold parse_ber_any in E. apply bind_ok in E as ([r' h] & E & _).
    exists r', h. exact E.
Qed.

Lemma blanket_first {T} (f : any -> res T) : object_first false (blanket_from_ber f).
Proof.
  intros i m x Hi E. unfold blanket_from_ber in E. apply bind_ok in E as ([r a] & E & F).
  apply bind_ok in F as (y & _ & F). injection F as -> ->. exact (any_first false i m a Hi E).
Qed.

Lemma der_first {T} (f : bytes * any -> res (bytes * T)) (p : bytes -> res (bytes * T)) :
  (forall i, p i = bind (parse_der_any i) f) -> (forall r a m x, f (r, a) = Ok (m, x) -> m = r) -> object_first true p.
Proof.
  intros Hp H i m x Hi E. rewrite Hp in E. apply bind_ok in E as ([r a] & E & F). apply H in F. subst m.
  exact (any_first true i r a Hi E).
Qed.

Ltac rest_is := let E := fresh in intros ? ? ? ? E; repeat (apply bind_ok in E as (? & _ & E)); 
  repeat match type of E with (let (_, _) := ?q in _) = _ => destruct q end; congruence.

Lemma struct_from_first {T} tag (f : fields T) : object_first true (struct_from_der tag f).
Proof.
  eapply der_first; [intros i; unfold struct_from_der; rewrite from_der_any_eq; reflexivity|]. cbn beta iota. rest_is.
Qed.

Lemma tagged_first {T} g (L : legacy T) der : object_first der (from_of der (tagged_legacy g L)).
Proof.
  unfold tagged_legacy. destruct der, (tg_kind g); cbn [from_of explicit_legacy implicit_legacy lg_from_ber lg_from_der];
    try apply blanket_first.
  - eapply der_first; [intros i; unfold explicit_from_der; rewrite from_der_any_eq; reflexivity|]. cbn beta iota. rest_is.
  - eapply der_first; [intros i; unfold implicit_from_der; rewrite from_der_any_eq; reflexivity|]. cbn beta iota. rest_is.
Qed.

Lemma vec_first {T} (L : legacy T) : object_first true (vec_from_der L).
Proof. eapply der_first; [intros i; unfold vec_from_der; reflexivity|]. cbn beta iota. rest_is. Qed.

Lemma ty_first {A} (t : ty A) der : object_first der (from_of der (legacy_of t)).
Proof.
  destruct t as [A b|A t|A m t|A t|A cmp t|A c m t|A c m t]; destruct der; cbn [from_of legacy_of]; try apply blanket_first.
  - eapply der_first; [intros i; cbn [codec_legacy lg_from_der]; unfold from_der; reflexivity|]. cbn beta iota. rest_is.
  - apply vec_first.
  - intros i n x _ E. discriminate.
  - intros i n x _ E. discriminate.
  - eapply der_first; [intros i; cbn [setof_legacy lg_from_der]; unfold setof_from_der; rewrite from_der_any_eq; reflexivity|]. cbn beta iota. rest_is.
  - eapply der_first; [intros i; cbn [btreeset_legacy lg_from_der]; unfold btreeset_from_der; rewrite from_der_any_eq; reflexivity|]. cbn beta iota. rest_is.
  - apply (tagged_first (mk_tagging KExplicit c m) (legacy_of t) true).
  - apply (tagged_first (mk_tagging KImplicit c m) (legacy_of t) true).
Qed.

Lemma legacy_first {A} (t : dty A) der : object_first der (from_of der (dlegacy_of t)).
Proof.
  destruct t as [A t|A t|A set fs|A k vs|ds|A t].
  - apply ty_first.
  - destruct der; cbn [from_of dlegacy_of]; [apply vec_first|apply blanket_first].
  - destruct der; cbn [from_of dlegacy_of]; [apply struct_from_first|apply blanket_first].
  - destruct der; intros i n x _ E; discriminate.
  - destruct der; intros i n x _ E; discriminate.
  - destruct der; cbn [from_of dlegacy_of]; [|apply blanket_first].
    eapply der_first; [intros i; cbn [alias_legacy lg_from_der]; unfold alias_from_der; rewrite from_der_any_eq; reflexivity|].
    cbn beta iota. rest_is.
Qed.

(** [absent], by the header. *)
Lemma absent_header der tags i : bytes_ok i ->
  (absent der tags i <-> i = [] \/ exists r h, header_of der i = Ok (r, h) /\ ~ In (h_tag h) tags).
Proof.
  intros Hi. unfold absent. split; (intros [->|H]; [left; reflexivity|]).
  - destruct H as (u & l & St & Hu & Hl). right. destruct (starts_header_of der i u l Hi St Hl) as (_ & r & h & E & <- & _).
    exists r, h. auto.
  - destruct H as (r & h & E & Hu). right. destruct (header_of_starts der i r h Hi E) as [St Hl]. exists (h_tag h), (h_length h). auto.
Qed.

Lemma option_from_reads {A} der (accept : N -> bool) tags (from : bytes -> res (bytes * A)) i rem o :
  (forall n, accept n = true <-> In n tags) -> bytes_ok i ->
  (option_from (header_of der) accept from i = Ok (rem, o) <->
   optional_read (absent der tags) (fun i m x => ~ absent der tags i /\ from i = Ok (m, x)) i rem o).
Proof.
  intros HA Hi. unfold option_from.
  assert (SB : forall T (q : res (bytes * T)) x, (let* (rm, y) := q in Ok (rm, Some y)) = Ok (rem, Some x) <-> q = Ok (rem, x)).
  { intros T q x. rewrite present_bind, present_ok. split; [intros (y & E & F); congruence|eauto]. }
  assert (SN : forall T (q : res (bytes * T)), (let* (rm, y) := q in Ok (rm, Some y)) <> Ok (rem, None)).
  { intros T q. rewrite present_bind, present_ok. intros (y & E & F); congruence. }
  destruct i as [|b i].
  { cbn [blen length N.of_nat N.eqb]. destruct o as [x|]; cbn [optional_read].
    - split; [discriminate|]. intros [F _]. exfalso. apply F. left. reflexivity.
    - split; [intros E; injection E as <-; split; [left|]; reflexivity|intros [_ ->]; reflexivity]. }
  destruct (N.eqb_spec (blen (b :: i)) 0) as [H0|_]; [apply blen_zero in H0; discriminate|].
  pose proof (absent_header der tags (b :: i) Hi) as AH.
  assert (NA : forall e : bool, (forall r h, header_of der (b :: i) <> Ok (r, h)) -> ~ absent der tags (b :: i)).
  { intros _ H F. apply AH in F as [F|(r & h & F & _)]; [discriminate|exact (H _ _ F)]. }
  destruct (header_of der (b :: i)) as [[r h]|e|n|] eqn:Eh.
  - assert (AT : absent der tags (b :: i) <-> accept (h_tag h) = false).
    { rewrite AH. split.
      - intros [F|(r' & h' & F & Hn)]; [discriminate|]. injection F as <- <-. rewrite <- HA in Hn.
        destruct (accept (h_tag h)); [congruence|reflexivity].
      - intros F. right. exists r, h. split; [reflexivity|]. rewrite <- HA. congruence. }
    destruct (accept (h_tag h)) eqn:Ac, o as [x|]; cbn [optional_read]; rewrite AT.
    + rewrite SB. split; [intros E; split; [discriminate|exact E]|tauto].
    + split; [intros E; exfalso; exact (SN _ _ E)|intros [F _]; discriminate].
    + split; [discriminate|]. intros [F _]. exfalso. apply F. reflexivity.
    + split; [intros E; injection E as <-; auto|intros [_ ->]; reflexivity].
  - specialize (NA true ltac:(discriminate)). destruct o as [x|]; cbn [optional_read]; [rewrite SB; tauto|].
    split; [intros E; exfalso; exact (SN _ _ E)|tauto].
  - specialize (NA true ltac:(discriminate)). destruct o as [x|]; cbn [optional_read]; [rewrite SB; tauto|].
    split; [intros E; exfalso; exact (SN _ _ E)|tauto].
  - specialize (NA true ltac:(discriminate)). destruct o as [x|]; cbn [optional_read]; [rewrite SB; tauto|].
    split; [intros E; exfalso; exact (SN _ _ E)|tauto].
Qed.

Lemma tagged_from_reads {A} der n (from : bytes -> res (bytes * A)) i rem o :
  object_first der from -> bytes_ok i ->
  (tagged_optional (header_of der) n from i = Ok (rem, o) <->
   optional_read (absent der [n]) (fun i m x => comes true [n] i /\ from i = Ok (m, x)) i rem o).
Proof.
  intros HF Hi. unfold tagged_optional.
  destruct i as [|b i].
  { cbn [blen length N.of_nat N.eqb]. split.
    - intros E. injection E as <- <-. split; [left|]; reflexivity.
    - destruct o as [x|]; [|intros [_ ->]; reflexivity]. intros [(u & l & St & _) _].
      destruct (starts_header u l [] Hi St) as (Hne & _). congruence. }
  destruct (N.eqb_spec (blen (b :: i)) 0) as [H0|_]; [apply blen_zero in H0; discriminate|].
  pose proof (absent_header der [n] (b :: i) Hi) as AH.
  assert (NH : (forall r h, header_of der (b :: i) <> Ok (r, h)) ->
     ~ optional_read (absent der [n]) (fun i m x => comes true [n] i /\ from i = Ok (m, x)) (b :: i) rem o).
  { intros H. destruct o as [x|]; cbn [optional_read].
    - intros [_ E]. destruct (HF _ _ _ Hi E) as (_ & r & h & F). exact (H _ _ F).
    - intros [F _]. apply AH in F as [F|(r & h & F & _)]; [discriminate|exact (H _ _ F)]. }
  destruct (header_of der (b :: i)) as [[r h]|e|m|] eqn:Eh; cbn [bind].
  - destruct (header_of_starts der _ r h Hi Eh) as [St Hl].
    assert (CM : comes true [n] (b :: i) <-> h_tag h = n).
    { split.
      - intros (u & l & St' & [<-|[]] & _).
        destruct (starts_header_of false _ _ l Hi St' ltac:(discriminate)) as (_ & r' & h' & E' & T' & _).
        destruct (starts_header_of false _ _ _ Hi St ltac:(discriminate)) as (_ & r2 & h2 & E2 & T2 & _). congruence.
      - intros <-. exists (h_tag h), (h_length h). split; [exact St|]. split; [left; reflexivity|discriminate]. }
    assert (AT : absent der [n] (b :: i) <-> h_tag h <> n).
    { rewrite AH. split.
      - intros [F|(r' & h' & F & Hn)]; [discriminate|]. injection F as <- <-. intros E. apply Hn. left. congruence.
      - intros F. right. exists r, h. split; [reflexivity|]. intros [E|[]]. congruence. }
    destruct (N.eqb_spec (h_tag h) n) as [Et|Et], o as [x|]; cbn [optional_read]; rewrite ?CM, ?AT.
    + rewrite present_bind, present_ok. split; [intros (y & E & F); split; [exact Et|congruence]|intros [_ E]; eauto].
    + rewrite present_bind, present_ok. split; [intros (y & E & F); congruence|intros [F _]; congruence].
    + split; [discriminate|]. intros [F _]. congruence.
    + split; [intros E; injection E as <-; auto|intros [_ ->]; reflexivity].
  - split; [discriminate|]. intros E. exfalso. apply NH in E; [exact E|discriminate].
  - split; [discriminate|]. intros E. exfalso. apply NH in E; [exact E|discriminate].
  - split; [discriminate|]. intros E. exfalso. apply NH in E; [exact E|discriminate].
Qed.

Definition lfields_of (der : bool) {A} (fs : dfields A) : fields A := if der then lder_of fs else lber_of fs.

Lemma lfields_reads {A} (fs : dfields A) : fields_wf fs -> forall der v i rem, bytes_ok i ->
  (lfields_of der fs i = Ok (rem, v) <-> lreads_fields der fs v i rem).
Proof.
  assert (HP : forall T (t : dty T), dwf t -> forall n, ps_accept (dparser_of t) n = true <-> In n (dtags t)).
  { intros T t Ht. pose proof (proj1 derive_sound T t Ht false) as H. exact (so_accept H). }
  assert (HO : forall T Ab (der : bool) (L : legacy T) (Q : bytes -> Prop) i m o, bytes_ok i -> object_first der (from_of der L) ->
    optional_read Ab (fun i m x => Q i /\ lread der L i m x) i m o -> bytes_ok m).
  { intros T Ab der L Q i m [x|] Hi HF; cbn [optional_read].
    - intros [_ E]. apply lread_eq in E. exact (proj1 (HF _ _ _ Hi E)).
    - intros [_ ->]. exact Hi. }
  assert (HD : forall T d Ab (Pr : bytes -> bytes -> T -> Prop) i m x, bytes_ok i ->
    (forall m o, optional_read Ab Pr i m o -> bytes_ok m) -> default_read d Ab Pr i m x -> bytes_ok m).
  { intros T d Ab Pr i m x Hi H [E|(_ & -> & _)]; [exact (H m (Some x) E)|exact Hi]. }
  induction fs as [|A B t fs IH|A B t fs IH|A B d t fs IH|A B g t fs IH|A B g t fs IH|A B g d t fs IH];
    cbn [fields_wf]; intros Hwf der v i rem Hi.
  - destruct v, der; cbn; (split; [intros E; injection E as <-; reflexivity|intros ->; reflexivity]).
  - destruct Hwf as [Ht Hf].
    assert (E : lfields_of der (FPlain t fs) = field (from_of der (dlegacy_of t)) (lfields_of der fs)) by (destruct der; reflexivity).
    rewrite E. apply field_reads.
    + intros m x. symmetry. apply lread_eq.
    + intros m x H. apply lread_eq in H. exact (proj1 (legacy_first t der _ _ _ Hi H)).
    + intros m y Hm. apply IH; assumption.
  - destruct Hwf as [Ht Hf].
    assert (E : lfields_of der (FOption t fs) = field (option_from (header_of der) (ps_accept (dparser_of t)) (from_of der (dlegacy_of t))) (lfields_of der fs)) by (destruct der; reflexivity).
    rewrite E. apply field_reads.
    + intros m x. rewrite (option_from_reads der _ (dtags t) _ _ _ _ (HP _ t Ht) Hi). destruct x; destruct der; reflexivity.
    + intros m x. apply HO; [exact Hi|apply legacy_first].
    + intros m y Hm. apply IH; assumption.
  - destruct Hwf as [Ht Hf].
    assert (E : lfields_of der (FDefault d t fs) = field (with_default d (option_from (header_of der) (ps_accept (dparser_of t)) (from_of der (dlegacy_of t)))) (lfields_of der fs)) by (destruct der; reflexivity).
    rewrite E. apply field_reads.
    + intros m x. apply default_reads. intros o. rewrite (option_from_reads der _ (dtags t) _ _ _ _ (HP _ t Ht) Hi). destruct o; destruct der; reflexivity.
    + intros m x. apply HD; [exact Hi|]. intros m' o. apply HO; [exact Hi|apply legacy_first].
    + intros m y Hm. apply IH; assumption.
  - destruct Hwf as (_ & Ht & Hf).
    assert (E : lfields_of der (FTagged g t fs) = field (from_of der (tagged_legacy g (dlegacy_of t))) (lfields_of der fs)) by (destruct der; reflexivity).
    rewrite E. apply field_reads.
    + intros m x. symmetry. apply lread_eq.
    + intros m x H. apply lread_eq in H. exact (proj1 (tagged_first g _ der _ _ _ Hi H)).
    + intros m y Hm. apply IH; assumption.
  - destruct Hwf as (_ & Ht & Hf).
    assert (E : lfields_of der (FTaggedOption g t fs) = field (tagged_optional (header_of der) (tg_num g) (from_of der (tagged_legacy g (dlegacy_of t)))) (lfields_of der fs)) by (destruct der; reflexivity).
    rewrite E. apply field_reads.
    + intros m x. rewrite (tagged_from_reads der (tg_num g) _ _ _ _ (tagged_first g _ der) Hi). destruct x; destruct der; reflexivity.
    + intros m x. apply HO; [exact Hi|apply tagged_first].
    + intros m y Hm. apply IH; assumption.
  - destruct Hwf as (_ & Ht & Hf).
    assert (E : lfields_of der (FTaggedDefault g d t fs) = field (with_default d (tagged_optional (header_of der) (tg_num g) (from_of der (tagged_legacy g (dlegacy_of t))))) (lfields_of der fs)) by (destruct der; reflexivity).
    rewrite E. apply field_reads.
    + intros m x. apply default_reads. intros o. rewrite (tagged_from_reads der (tg_num g) _ _ _ _ (tagged_first g _ der) Hi). destruct o; destruct der; reflexivity.
    + intros m x. apply HD; [exact Hi|]. intros m' o. apply HO; [exact Hi|apply tagged_first].
    + intros m y Hm. apply IH; assumption.
Qed.

(** [from_ber] and [from_der] accept an object of any class and either form with the tag number of the struct
    whose contents start with the components. *)
Theorem C69_older_accept {A} (set : bool) (fs : dfields A) (i rem : bytes) (v : A) :
  fields_wf fs -> bytes_ok i ->
  let L := dlegacy_of (DStruct set fs) in let tag := if set then 17 else 16 in
  (lg_from_ber L i = Ok (rem, v) <->
     exists c k content r, starts_with_ber_object c k tag content i rem /\ lreads_fields false fs v content r)
  /\ (lg_from_der L i = Ok (rem, v) <->
     exists c k content r, starts_with_object c k tag content i rem /\ lreads_fields true fs v content r).
Proof.
  intros Hwf Hi L tag. assert (ET : struct_tag set = tag) by (unfold tag; destruct set; reflexivity).
  unfold L. cbn [dlegacy_of]. cbn [struct_legacy lg_from_ber lg_from_der]. rewrite ET. split.
  - unfold blanket_from_ber, struct_try_from. split.
    + intros E. apply bind_ok in E as ([r a] & E & F). apply bind_ok in F as (y & F & G). injection G as -> ->.
      apply bind_ok in F as ([] & T & F). apply assert_tag_ok in T. apply bind_ok in F as ([r' y'] & F & G). injection G as ->.
      destruct (any_ber_object _ _ _ Hi E) as (O & Hd & _). rewrite T in O.
      exists (h_class (any_header a)), (h_constructed (any_header a)), (any_data a), r'. split; [exact O|].
      apply (lfields_reads fs Hwf false v _ _ Hd). change (lber_of fs (any_data a) = Ok (r', v)).
      destruct (lber_of fs (any_data a)); cbn [close] in F; congruence.
    + intros (c & k & d & r & O & E). destruct (ber_object_any _ _ _ _ _ _ Hi O) as (h & Ea & _ & _ & Ta).
      destruct (any_ber_object _ _ _ Hi Ea) as (_ & Hd & _). apply (lfields_reads fs Hwf false v _ _ Hd) in E.
      change (lber_of fs d = Ok (r, v)) in E. rewrite Ea. cbn [bind any_header any_data]. apply assert_tag_ok in Ta.
      rewrite Ta, E. reflexivity.
  - unfold struct_from_der. rewrite from_der_any_eq. split.
    + intros E. apply bind_ok in E as ([r a] & E & F).
      apply bind_ok in F as ([] & T & F). apply assert_tag_ok in T. apply bind_ok in F as ([r' y'] & F & G). injection G as -> ->.
      destruct (any_der_object _ _ _ Hi E) as (O & Hd & _). rewrite T in O.
      exists (h_class (any_header a)), (h_constructed (any_header a)), (any_data a), r'. split; [exact O|].
      apply (lfields_reads fs Hwf true v _ _ Hd). exact F.
    + intros (c & k & d & r & O & E). destruct (der_object_any _ _ _ _ _ _ Hi O) as (h & Ea & _ & _ & Ta).
      destruct (any_der_object _ _ _ Hi Ea) as (_ & Hd & _). apply (lfields_reads fs Hwf true v _ _ Hd) in E.
      change (lder_of fs d = Ok (r, v)) in E. rewrite Ea. cbn [bind any_header any_data]. apply assert_tag_ok in Ta.
      rewrite Ta. cbn [bind]. rewrite E. reflexivity.
Qed.
Print Assumptions C69_older_accept.

(** The constraint check accepts the encodings of a struct whose components are plain (untagged, not
    optional, not of a derived type themselves). *)
Fixpoint plain_fields {A} (fs : dfields A) : Prop :=
  match fs with
  | FNil => True
  | FPlain t fs => match t with DTy t => has_legacy t | _ => False end /\ plain_fields fs
  | _ => False
  end.

Theorem C69_check_partial {A} (set : bool) (fs : dfields A) (v : A) (cb : bytes) (h : header) :
  fields_wf fs -> plain_fields fs -> components_of false fs v cb -> blen cb < 2 ^ 24 ->
  h_tag h = (if set then 17 else 16) ->
  lg_check (dlegacy_of (DStruct set fs)) (mk_any h cb) = Ok tt.
Proof.
  intros Hwf Hp C Hn Ht.
  assert (E : lg_check (dlegacy_of (DStruct set fs)) (mk_any h cb) = check_fields (checks_of fs) cb).
  { change (lg_check (dlegacy_of (DStruct set fs)) (mk_any h cb)) with (struct_check (struct_tag set) (checks_of fs) (mk_any h cb)).
    unfold struct_check. cbn [any_header any_data].
    rewrite (proj2 (assert_tag_ok h (struct_tag set))) by (rewrite Ht; destruct set; reflexivity). reflexivity. }
  rewrite E. clear E Ht h set. revert v cb C Hn.
  induction fs as [|A B t fs IH|A B t fs IH|A B d t fs IH|A B g t fs IH|A B g t fs IH|A B g d t fs IH]; intros v cb C Hn; try contradiction.
  - reflexivity.
  - destruct Hwf as [Ht Hf], Hp as [Hl Hp]. destruct t as [A t|A t|A set fs0|A k vs|ds|A t]; try contradiction.
    destruct v as [x y]. destruct C as (e & r & E & C & ->). rewrite blen_app in Hn.
    destruct (types_sound t Ht) as (S & _ & _ & L & _). specialize (L Hl).
    destruct (encodes_object _ x e S E) as (c & k & u & b & E1 & E2 & Hu & Hb & O); [lia|].
    pose proof (object_size _ _ _ _ _ O) as Hsz.
    assert (Hr : bytes_ok r).
    { exact (fo_ok _ _ _ _ _ _ _ _ _ _ (proj1 (proj2 derive_sound) B fs Hf false) y r C). }
    destruct (object_from_der_any _ _ _ _ _ r O Hu Hb Hr) as (rt & rh & EA).
    change (checks_of (FPlain (DTy t) fs)) with (lg_check (legacy_of t) :: checks_of fs). cbn [check_fields].
    rewrite EA. cbn [close bind].
    destruct (proj1 (proj2 L) x b c k u E1 E2) as [_ X]; [lia|]. rewrite (proj2 (X rt rh)). cbn [bind].
    apply (IH Hf Hp y r C). lia.
Qed.
Print Assumptions C69_check_partial.

(** The form is not looked at; the constraint check rejects absent OPTIONAL components and tagged components,
    and with it [TaggedParser::<Implicit, T>::from_der]. *)
Definition opt_int := DStruct false (FOption (DTy (TBase BBool)) (FPlain (DTy (TBase (BInt 4))) FNil)).
Definition tagged_uint := DStruct false (FTagged (explicit_ctx 0) (DTy (TBase (BUint 1))) FNil).
Theorem C69_older_refuted :
  (lg_from_der (dlegacy_of bool_type) [0x10; 3; 1; 1; 0xff] = Ok ([], (true, tt))
   /\ ps_parse_der (dparser_of bool_type) [0x10; 3; 1; 1; 0xff] = Err EConstructExpected)
  /\ (exists a, from_der any_codec [0x30; 3; 2; 1; 5] = Ok ([], a)
       /\ lg_from_der (dlegacy_of opt_int) [0x30; 3; 2; 1; 5] = Ok ([], (None, (5%Z, tt)))
       /\ lg_check (dlegacy_of opt_int) a = Err (EDerConstraintFailed DCInvalidBoolean))
  /\ (exists a, from_der any_codec [0x30; 5; 0xa0; 3; 2; 1; 5] = Ok ([], a)
       /\ lg_from_der (dlegacy_of tagged_uint) [0x30; 5; 0xa0; 3; 2; 1; 5] = Ok ([], (5%Z, tt))
       /\ lg_check (dlegacy_of tagged_uint) a = Err EConstructUnexpected)
  /\ tp_implicit_from_der (dlegacy_of opt_int) [0xa1; 3; 2; 1; 5] = Err (EDerConstraintFailed DCInvalidBoolean).
Proof.
  split; [split; vm_compute; reflexivity|]. split; [|split].
  - exists (mk_any (mk_header Universal true 16 (Definite 3) (Some [0x30]) (Some [0x30; 3])) [2; 1; 5]).
    repeat split; vm_compute; reflexivity.
  - exists (mk_any (mk_header Universal true 16 (Definite 5) (Some [0x30]) (Some [0x30; 5])) [0xa0; 3; 2; 1; 5]).
    repeat split; vm_compute; reflexivity.
  - vm_compute. reflexivity.
Qed.
Print Assumptions C69_older_refuted.

Example C69_case :
  fields_wf (FOption (DTy (TBase BBool)) (FPlain (DTy (TBase (BInt 4))) FNil))
  /\ lg_from_ber (dlegacy_of opt_int) [0x30; 3; 2; 1; 5; 9] = Ok ([9], (None, (5%Z, tt)))
  /\ lg_from_der (dlegacy_of opt_int) [0x30; 6; 1; 1; 0xff; 2; 1; 5] = Ok ([], (Some true, (5%Z, tt)))
  /\ (exists e, lg_from_der (dlegacy_of opt_int) [0x30; 3; 1; 1; 0xff] = Err e \/ lg_from_der (dlegacy_of opt_int) [0x30; 3; 1; 1; 0xff] = Incomplete 1)
  /\ plain_fields (FPlain (DTy (TBase BBool)) (FPlain (DTy (TBase (BInt 4))) FNil)).
Proof.
  split; [cbn; lia|]. split; [vm_compute; reflexivity|]. split; [vm_compute; reflexivity|].
  split; [exists EUnsupported; right; vm_compute; reflexivity|cbn; tauto].
Qed.

(** ** C70: Alias *)

(** An alias reads exactly what the aliased type reads, and writes the same octets. *)
Theorem C70_alias_reads {A} (t : dty A) (i : bytes) :
  dwf t ->
  ps_parse_ber (dparser_of (DAlias t)) i = ps_parse_ber (dparser_of t) i
  /\ ps_parse_der (dparser_of (DAlias t)) i = ps_parse_der (dparser_of t) i
  /\ (has_dlegacy t -> lg_from_ber (dlegacy_of (DAlias t)) i = lg_from_ber (dlegacy_of t) i).
Proof.
  intros Hwf. pose proof (proj1 derive_sound A t Hwf false) as H. destruct (proj1 (so_parser H)) as [R1 R2].
  split; [rewrite R1; reflexivity|]. split; [rewrite R2; reflexivity|]. intros Hl.
  symmetry. exact (proj1 (so_legacy H Hl) i).
Qed.
Print Assumptions C70_alias_reads.

Theorem C70_alias_writes {A} (t : dty A) (v : A) (enc : bytes) :
  dwf t -> writable t -> encodes (dsyntax_of true t) v enc -> blen enc < 2 ^ 24 ->
  to_vec (wr_ber (dwriter_of (DAlias t)) v) = Ok enc /\ to_vec (wr_der (dwriter_of (DAlias t)) v) = Ok enc
  /\ to_vec (wr_ber (dwriter_of t) v) = Ok enc /\ to_vec (wr_der (dwriter_of t) v) = Ok enc
  /\ dreads (DAlias t) enc v.
Proof.
  intros Hwf Hw E Hn. destruct (C65_derived_roundtrip_partial t v enc Hwf Hw E Hn) as (R1 & R2 & _).
  destruct (C65_derived_roundtrip_partial (DAlias t) v enc Hwf Hw E Hn) as (S1 & S2 & _ & _ & S3). auto.
Qed.
Print Assumptions C70_alias_writes.

(** The [from_der] of an alias does not check the constraints of DER, nor does it require the elements of a
    list to be in DER. *)
Theorem C70_alias_refuted :
  lg_from_der (dlegacy_of (DAlias (DTy (TBase BBool)))) [1; 1; 5] = Ok ([], true)
  /\ lg_from_der (dlegacy_of (DTy (TBase BBool))) [1; 1; 5] = Err (EDerConstraintFailed DCInvalidBoolean)
  /\ lg_from_der (dlegacy_of (DAlias (DTy (TVec (TBase BBool))))) [0x30; 3; 1; 1; 5] = Ok ([], [true])
  /\ (exists e, lg_from_der (dlegacy_of (DTy (TVec (TBase BBool)))) [0x30; 3; 1; 1; 5] = Err e).
Proof.
  do 3 (split; [vm_compute; reflexivity|]). exists (EDerConstraintFailed DCInvalidBoolean). vm_compute. reflexivity.
Qed.
Print Assumptions C70_alias_refuted.

Example C70_case : let t := DAlias outer_type in dwf t /\ writable t
  /\ to_vec (wr_der (dwriter_of t) outer_value) = Ok outer_octets
  /\ ps_parse_der (dparser_of t) outer_octets = Ok ([], outer_value).
Proof. split; [exact outer_wf|]. split; [cbn; tauto|]. split; vm_compute; reflexivity. Qed.
