(** C71: exactly when an explicit tag asks for more octets although the object is complete. *)
From Verif Require Import Base PArith MHeader MEncode SHeader PHeader PEncode MBer SBer PBer PIter PCodec.
From Verif Require Import MInt MSeg PSeg MOid MText MTime MCont PropTag PropItems PSafe.
From Verif Require Import SCont SBase PTypes MPdv MDerive SDerive PDerive PropSafe PropQuiet PropAgree.

(** The header of an explicit tag. *)
Definition explicit_head (c : class) (n : N) (h : header) : Prop := h_constructed h = true /\ h_class h = c /\ h_tag h = n.

Lemma explicit_content_incomplete {T} c n (p : bytes -> res (bytes * T)) h d m :
  explicit_content c n p h d = Incomplete m <-> explicit_head c n h /\ p d = Incomplete m.
Proof.
  unfold explicit_content, assert_constructed, check_class, check_tag, is_tag, explicit_head.
  destruct (h_constructed h); cbn [bind]; [|split; [discriminate|intros [[? _] _]; discriminate]].
  destruct (N.eqb_spec (class_num (h_class h)) (class_num c)) as [E|E]; cbn [bind].
  2: { split; [discriminate|]. intros [(_ & Q & _) _]. rewrite Q in *. contradiction. }
  apply class_num_inj in E. destruct (N.eqb_spec (h_tag h) n); cbn [bind]; [tauto|].
  split; [discriminate|]. intros [(_ & _ & ?) _]. contradiction.
Qed.

(** On a complete object an explicit tag answers [Incomplete] exactly when its header is the right one and the type inside does so on the content. *)
Theorem C71_explicit_exact {A} (t : ty A) c n i r a m :
  (parse_ber_any i = Ok (r, a) ->
     (ps_parse_ber (parser_of (TExplicit c n t)) i = Incomplete m
      <-> explicit_head c n (any_header a) /\ ps_parse_ber (parser_of t) (any_data a) = Incomplete m))
  /\ (parse_der_any i = Ok (r, a) ->
     (ps_parse_der (parser_of (TExplicit c n t)) i = Incomplete m
      <-> explicit_head c n (any_header a) /\ ps_parse_der (parser_of t) (any_data a) = Incomplete m))
  /\ (parse_der_any i = Ok (r, a) ->
     (lg_from_der (legacy_of (TExplicit c n t)) i = Incomplete m
      <-> explicit_head c n (any_header a) /\ lg_from_der (legacy_of t) (any_data a) = Incomplete m)).
Proof.
  assert (K : forall (X : res (bytes * A)) (r' : bytes), (let* (_, x) := X in Ok (r', x)) = Incomplete m <-> X = Incomplete m).
  { intros [[? ?]|e|k|] r'; cbn [bind]; split; intros E; try discriminate; injection E as ->; reflexivity. }
  split; [|split]; intros E.
  - unfold parse_ber_any in E. apply bind_ok in E as ([r1 h] & Eh & E). apply bind_ok in E as ([r2 d] & Ed & E). injection E as -> <-. cbn [any_header any_data].
    cbn [parser_of explicit_parser default_parser codec_parser ps_parse_ber]. unfold parse_ber. rewrite Eh. cbn [bind accept_tag].
    unfold is_tag at 1. destruct (N.eqb_spec (h_tag h) n) as [Et|Et].
    + rewrite Ed. cbn [bind ber_content]. rewrite K. apply explicit_content_incomplete.
    + split; [discriminate|]. intros [(_ & _ & ?) _]. contradiction.
  - unfold parse_der_any in E. apply bind_ok in E as ([r1 h] & Eh & E). apply bind_ok in E as (u & El & E). apply bind_ok in E as ([r2 d] & Ed & E). injection E as -> <-. cbn [any_header any_data].
    cbn [parser_of explicit_parser default_parser codec_parser ps_parse_der]. unfold parse_der. rewrite Eh. cbn [bind].
    unfold der_get_content in Ed. destruct (h_length h) as [l|]; [|discriminate]. cbn [accept_tag].
    unfold is_tag at 1. destruct (N.eqb_spec (h_tag h) n) as [Et|Et].
    + rewrite Ed. cbn [bind der_content]. rewrite K. apply explicit_content_incomplete.
    + split; [discriminate|]. intros [(_ & _ & ?) _]. contradiction.
  - cbn [legacy_of explicit_legacy lg_from_der]. unfold explicit_from_der. rewrite from_der_any_eq, E. cbn [bind].
    unfold assert_tag, assert_constructed, check_class, explicit_head. destruct (N.eqb_spec (h_tag (any_header a)) n) as [Et|Et]; cbn [bind].
    2: { split; [discriminate|]. intros [(_ & _ & ?) _]. contradiction. }
    destruct (h_constructed (any_header a)); cbn [bind]; [|split; [discriminate|intros [[? _] _]; discriminate]].
    destruct (N.eqb_spec (class_num (h_class (any_header a))) (class_num c)) as [Ec|Ec]; cbn [bind].
    + apply class_num_inj in Ec. rewrite K. tauto.
    + split; [discriminate|]. intros [(_ & Q & _) _]. rewrite Q in *. contradiction.
Qed.
Print Assumptions C71_explicit_exact.

(** [0] EXPLICIT INTEGER with a cut integer inside; under the class or tag of another type it is an error. *)
Example C71_explicit_exact_case :
  let i := [0xa0; 2; 2; 5] in let t := TBase (BUint 4) in
  is_ok (parse_der_any i) = true
  /\ ps_parse_der (parser_of (TExplicit ContextSpecific 0 t)) i = Incomplete 5
  /\ ps_parse_der (parser_of (TExplicit ContextSpecific 0 (TExplicit ContextSpecific 0 t))) [0xa0; 4; 0xa0; 2; 2; 5] = Incomplete 5
  /\ ps_parse_der (parser_of (TExplicit Application 0 t)) i = Err EUnexpectedClass
  /\ ps_parse_der (parser_of (TExplicit ContextSpecific 0 t)) [0xa0; 3; 2; 1; 5] = Ok ([], 5%Z).
Proof. vm_compute. repeat split. Qed.

(** ** Derived structs *)

(** Structs whose fields have no attribute. *)
Fixpoint plain_fields {A} (fs : dfields A) : bool :=
  match fs with FNil => true | FPlain _ fs => plain_fields fs | _ => false end.
(** The fields before one are read and that one asks for [m] octets more. *)
Fixpoint cut_field (rd : forall A, dty A -> bytes -> res (bytes * A)) {A} (fs : dfields A) (m : N) (i : bytes) : Prop :=
  match fs with
  | FPlain t fs => rd _ t i = Incomplete m \/ exists r x, rd _ t i = Ok (r, x) /\ cut_field rd fs m r
  | _ => False
  end.

Lemma field_incomplete {A B} (p : bytes -> res (bytes * A)) (q : fields B) i m :
  field p q i = Incomplete m <-> p i = Incomplete m \/ exists r x, p i = Ok (r, x) /\ q r = Incomplete m.
Proof.
  unfold field. destruct (p i) as [[r x]|e|n|]; cbn [bind].
  - destruct (q r) as [[r' y]|e|n|] eqn:Q; cbn [bind]; (split; [|intros [E|(r2 & x2 & E & F)]; [discriminate E|injection E as <- <-; congruence]]);
      intros E; try discriminate. injection E as ->. eauto.
  - split; [discriminate|intros [?|(? & ? & ? & _)]; discriminate].
  - split; [intros E; left; injection E as ->; reflexivity|intros [E|(? & ? & ? & _)]; [injection E as ->; reflexivity|discriminate]].
  - split; [discriminate|intros [?|(? & ? & ? & _)]; discriminate].
Qed.

Lemma plain_incomplete {A} (fs : dfields A) m : plain_fields fs = true -> forall i,
  (ber_of fs i = Incomplete m <-> cut_field (fun A (t : dty A) => ps_parse_ber (dparser_of t)) fs m i)
  /\ (der_of fs i = Incomplete m <-> cut_field (fun A (t : dty A) => ps_parse_der (dparser_of t)) fs m i)
  /\ (lder_of fs i = Incomplete m <-> cut_field (fun A (t : dty A) => lg_from_der (dlegacy_of t)) fs m i).
Proof.
  induction fs; intros H i; try discriminate H.
  - cbn [ber_of der_of lder_of cut_field]. unfold no_field. repeat split; intros E; try discriminate E; contradiction.
  - cbn [plain_fields] in H. specialize (IHfs H).
    change (ber_of (FPlain t fs)) with (field (ps_parse_ber (dparser_of t)) (ber_of fs)).
    change (der_of (FPlain t fs)) with (field (ps_parse_der (dparser_of t)) (der_of fs)).
    change (lder_of (FPlain t fs)) with (field (lg_from_der (dlegacy_of t)) (lder_of fs)).
    cbn [cut_field]. rewrite !field_incomplete. split; [|split]; apply or_iff_compat_l;
      (split; intros (r & x & E & F); exists r, x; (split; [exact E|]); apply (IHfs r); exact F).
Qed.

(** On a complete object a derived struct answers [Incomplete] exactly when the header is the right one and a field is cut short inside; [from_der] checks only the number of the tag. *)
Theorem C71_struct_exact {A} (fs : dfields A) (set : bool) i r a m : plain_fields fs = true ->
  let h := any_header a in let n := if set then 17 else 16 in
  (parse_ber_any i = Ok (r, a) ->
     (ps_parse_ber (dparser_of (DStruct set fs)) i = Incomplete m
      <-> h_constructed h = true /\ h_tag h = n /\ cut_field (fun A (t : dty A) => ps_parse_ber (dparser_of t)) fs m (any_data a)))
  /\ (parse_der_any i = Ok (r, a) ->
     (ps_parse_der (dparser_of (DStruct set fs)) i = Incomplete m
      <-> h_constructed h = true /\ h_tag h = n /\ cut_field (fun A (t : dty A) => ps_parse_der (dparser_of t)) fs m (any_data a)))
  /\ (parse_der_any i = Ok (r, a) ->
     (lg_from_der (dlegacy_of (DStruct set fs)) i = Incomplete m
      <-> h_tag h = n /\ cut_field (fun A (t : dty A) => lg_from_der (dlegacy_of t)) fs m (any_data a))).
Proof.
  intros P h n. subst h. destruct (plain_incomplete fs m P (any_data a)) as (Pb & Pd & Pl).
  assert (K : forall (X : res (bytes * A)) (r' : bytes), (let* (_, x) := X in Ok (r', x)) = Incomplete m <-> X = Incomplete m).
  { intros [[? ?]|e|k|] r'; cbn [bind]; split; intros E; try discriminate; injection E as ->; reflexivity. }
  assert (Tn : struct_tag set = n) by (destruct set; reflexivity).
  split; [|split]; intros E.
  - rewrite <- Pb. unfold parse_ber_any in E. apply bind_ok in E as ([r1 h] & Eh & E). apply bind_ok in E as ([r2 d] & Ed & E). injection E as -> <-. cbn [any_header any_data].
    change (dparser_of (DStruct set fs)) with (struct_parser (struct_tag set) (ber_of fs) (der_of fs)). rewrite Tn.
    cbn [struct_parser default_parser codec_parser ps_parse_ber]. unfold parse_ber. rewrite Eh. cbn [bind accept_tag].
    unfold is_tag. destruct (N.eqb_spec (h_tag h) n) as [Et|Et]; [|split; [discriminate|tauto]].
    rewrite Ed. cbn [bind ber_content]. rewrite K. unfold struct_content, assert_constructed.
    destruct (h_constructed h); cbn [bind]; [tauto|]. split; [discriminate|]. intros [? _]. discriminate.
  - rewrite <- Pd. unfold parse_der_any in E. apply bind_ok in E as ([r1 h] & Eh & E). apply bind_ok in E as (u & El & E). apply bind_ok in E as ([r2 d] & Ed & E). injection E as -> <-. cbn [any_header any_data].
    change (dparser_of (DStruct set fs)) with (struct_parser (struct_tag set) (ber_of fs) (der_of fs)). rewrite Tn.
    cbn [struct_parser default_parser codec_parser ps_parse_der]. unfold parse_der. rewrite Eh. cbn [bind].
    unfold der_get_content in Ed. destruct (h_length h) as [l|]; [|discriminate]. cbn [accept_tag].
    unfold is_tag. destruct (N.eqb_spec (h_tag h) n) as [Et|Et]; [|split; [discriminate|tauto]].
    rewrite Ed. cbn [bind der_content]. rewrite K. unfold struct_content, assert_constructed.
    destruct (h_constructed h); cbn [bind]; [tauto|]. split; [discriminate|]. intros [? _]. discriminate.
  - rewrite <- Pl. change (lg_from_der (dlegacy_of (DStruct set fs)) i) with (struct_from_der (struct_tag set) (lder_of fs) i). rewrite Tn.
    unfold struct_from_der. rewrite from_der_any_eq, E. cbn [bind]. unfold assert_tag.
    destruct (N.eqb_spec (h_tag (any_header a)) n) as [Et|Et]; cbn [bind]; [|split; [discriminate|tauto]]. rewrite K. tauto.
Qed.
Print Assumptions C71_struct_exact.

(** Two integers, the second cut short; the same octets are an error for a set. *)
Example C71_struct_exact_case :
  let fs := FPlain (DTy (TBase (BUint 4))) (FPlain (DTy (TBase (BUint 4))) FNil) in
  let i := [0x30; 5; 2; 1; 7; 2; 5] in
  plain_fields fs = true /\ is_ok (parse_der_any i) = true
  /\ ps_parse_der (dparser_of (DStruct false fs)) i = Incomplete 5 /\ cut_field (fun A (t : dty A) => ps_parse_der (dparser_of t)) fs 5 [2; 1; 7; 2; 5]
  /\ ps_parse_der (dparser_of (DStruct true fs)) i = Err EUnexpectedTag
  /\ ps_parse_der (dparser_of (DStruct false fs)) [0x30; 6; 2; 1; 7; 2; 1; 8] = Ok ([], (7%Z, (8%Z, tt))).
Proof.
  cbv zeta. split; [reflexivity|]. split; [vm_compute; reflexivity|]. split; [vm_compute; reflexivity|]. split.
  - cbn [cut_field]. right. exists [2; 5], 7%Z. split; [vm_compute; reflexivity|]. left. vm_compute. reflexivity.
  - vm_compute. repeat split.
Qed.

(** ** Choices, enumerations, aliases and vectors of one another *)

(** Derived types without explicit tags and structs. *)
Fixpoint dclosed {A} (t : dty A) : bool :=
  match t with
  | DTy t => no_explicit t
  | DVec t => dclosed t
  | DStruct _ _ => false
  | DChoice (Some KExplicit) _ => false
  | DChoice _ vs => vclosed vs
  | DEnum _ => true
  | DAlias t => dclosed t
  end
with vclosed {A} (vs : dvariants A) : bool :=
  match vs with VNil => true | VCons _ t vs => dclosed t && vclosed vs end.

Lemma derived_quiet :
  (forall A (t : dty A), dclosed t = true -> quiet_content (ps_ber_content (dparser_of t)) /\ quiet_content (ps_der_content (dparser_of t)))
  /\ (forall A (fs : dfields A), True)
  /\ (forall A (vs : dvariants A), vclosed vs = true -> forall k, k <> Some KExplicit -> quiet_content (ber_variants k vs) /\ quiet_content (der_variants k vs)).
Proof.
  apply dty_mutind; try (intros; exact I).
  - intros A t H. exact (types_quiet t H).
  - intros A t IH H. destruct (IH H) as [B D]. split; intros h d [Hd _]; cbn [dparser_of vec_parser default_parser codec_parser ps_ber_content ps_der_content ber_content der_content];
      unfold vec_ber_content, vec_der_content; quiet_tac; [apply collect_ber_quiet|apply collect_der_quiet]; assumption.
  - intros A s fs _ H. discriminate H.
  - intros A k vs IH H. assert (K : k <> Some KExplicit) by (intros ->; discriminate H).
    assert (V : vclosed vs = true) by (destruct k as [[|]|]; [contradiction|exact H|exact H] || (destruct k as [[|]|]; [exact H|contradiction|exact H])).
    destruct (IH V k K) as [B D]. split; intros h d F.
    + change (quiet (choice_content k (ber_variants k vs) h d)). unfold choice_content. destruct k as [[|]|]; try contradiction; apply B, F.
    + change (quiet (choice_content k (der_variants k vs) h d)). unfold choice_content. destruct k as [[|]|]; try contradiction; apply D, F.
  - intros ds _. split; intros h d F; [change (quiet (denum_content ds (ber_content enum_codec) h d))|change (quiet (denum_content ds (der_content enum_codec) h d))];
      unfold denum_content; quiet_tac; [apply (base_ber_quiet BEnum), F|apply (base_der_quiet BEnum), F].
  - intros A t IH H. destruct (IH H) as [B D]. split; [exact B|exact D].
  - intros _ k _. split; intros h d _; exact I.
  - intros A B n t IHt vs IHv H k K. cbn [vclosed] in H. apply andb_prop in H as [Ht Hv]. destruct (IHt Ht) as [B1 D1]. destruct (IHv Hv k K) as [B2 D2].
    split; intros h d F; cbn [ber_variants der_variants]; destruct k as [[|]|]; try contradiction; unfold tagged_variant, untagged_variant; quiet_tac;
      solve [apply B1, F|apply D1, F|apply B2, F|apply D2, F].
Qed.

Theorem C71_derived {A} (t : dty A) : dclosed t = true ->
  asks_for_object parse_ber_any (ps_parse_ber (dparser_of t)) /\ asks_for_object parse_der_any (ps_parse_der (dparser_of t)).
Proof.
  intros H. destruct (proj1 derived_quiet A t H) as [B D].
  assert (C : exists p, dparser_of t = codec_parser p) by (destruct t as [A t|A t|A s fs|A k vs|ds|A t]; [exact (parser_is_codec t)|eexists; reflexivity..]).
  destruct C as [p E]. rewrite E in *. split; [exact (codec_ber_asks p B)|exact (codec_der_asks p D)].
Qed.
Print Assumptions C71_derived.

(** A vector of implicitly tagged choices with a cut element inside. *)
Example C71_derived_case :
  let t := DVec (DChoice (Some KImplicit) (VCons 0 (DTy (TBase (BUint 4))) (VCons 1 (DEnum [1; 2]) VNil))) in
  dclosed t = true
  /\ ps_parse_der (dparser_of t) [0x30; 3; 0x80; 2; 5] = Err (EIncomplete 1) /\ ps_parse_der (dparser_of t) [0x30; 4; 0x80; 2; 5] = Incomplete 1
  /\ ps_parse_der (dparser_of t) [0x30; 6; 0x80; 1; 5; 0x81; 1; 2] = Ok ([], [inl 5%Z; inr (inl 2)]).
Proof. vm_compute. repeat split. Qed.
