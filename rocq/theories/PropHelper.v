(** Further parts of C29, C30 (helpers that take a closure), C33 (charset test) and C65 (absent OPTIONAL components). *)
From Verif Require Import Base MHeader MEncode SHeader PArith PHeader PEncode MBer SBer PBer PIter PCodec PropBer.
From Verif Require Import MInt SInt PInt PropInt MSeg SSeg PSeg PBits PropSeg MOid POid PropOid MText SText PText PropText.
From Verif Require Import MTime STime MCont SCont PCont SBase PBase PTypes PropCont PropTag PropItems.
From Verif Require Import MDerive SDerive PDerive PropDerive.

(** ** C29, C30: [parse_der_tagged_explicit_g], [parse_der_tagged_implicit_g] *)

(** A header as read: class, form, number, length, and the octets it was read from. *)
Definition header_as_read (c : class) (k : bool) (n : N) (l : blength) (octets : bytes) (h : header) : Prop :=
  h_class h = c /\ h_constructed h = k /\ h_tag h = n /\ h_length h = l /\ h_raw_header h = Some octets.

(** The closure gets the contents of a DER object of that tag number, of any class and form, and its header; for an implicit tag the
    header has the tag number of the type instead.  What the closure leaves is dropped. *)
Theorem C29_closure_partial {T} (n : N) (f : bytes -> header -> res (bytes * T)) (i rem : bytes) (v : T) :
  bytes_ok i ->
  parse_der_tagged_explicit_g n f i = Ok (rem, v) <->
  exists c k content octets h r, starts_with_object c k n content i rem /\ i = octets ++ content ++ rem
    /\ parse_der_any i = Ok (rem, mk_any h content) /\ header_as_read c k n (Definite (blen content)) octets h
    /\ f content h = Ok (r, v).
Proof.
  intros Hi. unfold parse_der_tagged_explicit_g. rewrite from_der_any_eq. split.
  - intros E. apply bind_ok in E as ([r1 [h d]] & E & F). apply bind_ok in F as ([] & Ta & F). cbn [any_header any_data] in *.
    apply bind_ok in F as ([r x] & F & G). injection G as -> ->. pose proof E as E0.
    apply assert_tag_ok in Ta. apply parse_der_any_ok in E as (c & k & t & m & idb & lenb & bs & HR & Hb & <- & Ea); [|exact Hi].
    injection Ea as -> ->. cbn [h_tag] in Ta. rewrite Ta in F, E0.
    exists c, k, bs, (idb ++ lenb), (mk_header c k n (Definite (blen bs)) (Some idb) (Some (idb ++ lenb))), r.
    split; [exists t, idb, lenb; auto|]. split; [rewrite <- app_assoc; exact Hb|]. split; [exact E0|].
    split; [repeat split|exact F].
  - intros (c & k & d & o & h & r & _ & _ & E & (_ & _ & Ta & _) & F). rewrite E. cbn [bind any_header any_data].
    apply assert_tag_ok in Ta. rewrite Ta. cbn [bind]. rewrite F. reflexivity.
Qed.
Print Assumptions C29_closure_partial.

(** [2] EXPLICIT INTEGER. *)
Example C29_closure_case :
  bytes_ok [0xa2; 3; 2; 1; 5; 9]
  /\ parse_der_tagged_explicit_g 2 (fun d _ => parse_der (uint_codec 4) d) [0xa2; 3; 2; 1; 5; 9] = Ok ([9], 5%Z)
  /\ parse_der_tagged_explicit_g 3 (fun d _ => parse_der (uint_codec 4) d) [0xa2; 3; 2; 1; 5; 9] = Err EUnexpectedTag.
Proof. split; [repeat constructor|]. vm_compute. split; reflexivity. Qed.

Theorem C30_closure_partial {T} (n own : N) (f : bytes -> N -> header -> res (bytes * T)) (i rem : bytes) (v : T) :
  bytes_ok i ->
  parse_der_tagged_implicit_g n own f i = Ok (rem, v) <->
  exists c k content octets h r, starts_with_object c k n content i rem /\ i = octets ++ content ++ rem
    /\ parse_der_any i = Ok (rem, mk_any (with_tag h n) content)
    /\ header_as_read c k own (Definite (blen content)) octets h
    /\ f content n h = Ok (r, v).
Proof.
  intros Hi. unfold parse_der_tagged_implicit_g. rewrite from_der_any_eq. split.
  - intros E. apply bind_ok in E as ([r1 [h d]] & E & F). apply bind_ok in F as ([] & Ta & F). cbn [any_header any_data] in *.
    apply bind_ok in F as ([r x] & F & G). injection G as -> ->. pose proof E as E0.
    apply assert_tag_ok in Ta. apply parse_der_any_ok in E as (c & k & t & m & idb & lenb & bs & HR & Hb & <- & Ea); [|exact Hi].
    injection Ea as -> ->. cbn [h_tag] in Ta. rewrite Ta in F, E0.
    exists c, k, bs, (idb ++ lenb), (mk_header c k own (Definite (blen bs)) (Some idb) (Some (idb ++ lenb))), r.
    split; [exists t, idb, lenb; auto|]. split; [rewrite <- app_assoc; exact Hb|]. split; [exact E0|].
    split; [repeat split|exact F].
  - intros (c & k & d & o & h & r & _ & _ & E & (_ & _ & Ta & _) & F). rewrite E. cbn [bind any_header any_data].
    assert (Tn : h_tag (with_tag h n) = n) by reflexivity. apply assert_tag_ok in Tn. rewrite Tn. cbn [bind].
    replace (with_tag (with_tag h n) own) with h by (destruct h; cbn in *; subst; reflexivity).
    rewrite F. reflexivity.
Qed.
Print Assumptions C30_closure_partial.

(** The closure gets the tag of the type in its header. *)
Example C30_closure_case :
  bytes_ok [0x82; 1; 5; 9]
  /\ parse_der_tagged_implicit_g 2 2 (fun d t h => Ok ([], (d, t, h_tag h))) [0x82; 1; 5; 9] = Ok ([9], ([5], 2, 2))
  /\ parse_der_tagged_implicit_g 2 10 (fun d t h => Ok ([], (d, t, h_tag h))) [0x82; 1; 5; 9] = Ok ([9], ([5], 2, 10)).
Proof. split; [repeat constructor|]. vm_compute. split; reflexivity. Qed.

(** Missing: the class of the tag is not asked for. *)
Definition take_all (d : bytes) (h : header) : res (bytes * (N * bytes)) := Ok ([], (h_tag h, d)).
Theorem C29_closure_refuted :
  parse_der_tagged_explicit_g 2 take_all [0xa2; 2; 7; 8; 9] = Ok ([9], (2, [7; 8]))
  /\ parse_der_tagged_explicit_g 2 take_all [0x62; 2; 7; 8; 9] = Ok ([9], (2, [7; 8]))
  /\ parse_der_tagged_implicit_g 2 4 (fun d _ h => take_all d h) [0x82; 2; 7; 8; 9] = Ok ([9], (4, [7; 8]))
  /\ parse_der_tagged_implicit_g 2 4 (fun d _ h => take_all d h) [0x02; 2; 7; 8; 9] = Ok ([9], (4, [7; 8]))
  /\ parse_der_tagged_implicit_g 2 4 (fun d _ h => take_all d h) [0x83; 2; 7; 8; 9] = Err EUnexpectedTag
  /\ parse_der_tagged_implicit_g 2 4 (fun d _ h => take_all d h) [0xa2; 0x80; 0; 0] = Err (EDerConstraintFailed DCIndefiniteLength).
Proof. repeat split; vm_compute; reflexivity. Qed.
Print Assumptions C29_closure_refuted.

(** ** C33: the charset test of BMPString *)

(** Unlike the readers (C33_bmp_odd_refuted) it asks for an even number of octets. *)
Theorem C33_bmp_charset (o : bytes) : bytes_ok o -> bmp_test_valid_charset o = Ok tt <-> exists s, utf16be s o.
Proof.
  intros Ho.
  assert (Ev : forall s d, utf16be s d -> blen d mod 2 = 0).
  { intros s d H. induction H as [|c s u us H1 H2 IH]; [reflexivity|]. rewrite blen_app.
    destruct H1; unfold blen in *; cbn [length]; lia. }
  unfold bmp_test_valid_charset. destruct (N.eqb_spec (blen o mod 2) 0) as [E|E]; cbn [negb].
  - split.
    + destruct (from_utf16 (bmp_units o)) as [s|] eqn:F; [|discriminate]. intros _. exists s.
      apply from_utf16_iff in F; [|exact Ho]. destruct F as [F|(s' & d' & a & _ & -> & F)]; [exact F|].
      apply Ev in F. rewrite blen_app in E. change (blen [a]) with 1 in E. lia.
    + intros [s U]. rewrite (proj2 (from_utf16_iff o s Ho) (or_introl U)). reflexivity.
  - split; [discriminate|]. intros [s U]. apply Ev in U. lia.
Qed.
Print Assumptions C33_bmp_charset.

Example C33_charset_case : bmp_test_valid_charset [0; 65; 0xd8; 0; 0xdc; 1] = Ok tt
  /\ bmp_test_valid_charset [0; 65; 0xd8] = Err EStringInvalidCharset
  /\ bmp_test_valid_charset [0xd8; 0; 0; 65] = Err EStringInvalidCharset.
Proof. repeat split; vm_compute; reflexivity. Qed.

(** ** C65: OPTIONAL components that are absent *)

(** An absent component adds, without a tag, nothing to what is written but two to the length announced; under a tag an object
    without contents, or with the contents 00 00 if the tag is explicit. *)
Theorem C65_optional_absent {A B} (set : bool) (t : dty A) (fs : dfields B) (g : tagging) (y : B) (cb o e : bytes) :
  fields_wf fs -> fields_writable fs -> components_of true fs y cb -> blen cb < 2 ^ 23 -> tg_num g < 2 ^ 32 ->
  object (tg_class g) (match tg_kind g with KExplicit => true | KImplicit => false end) (tg_num g)
         (match tg_kind g with KExplicit => [0; 0] | KImplicit => [] end) o ->
  object Universal true (if set then 17 else 16) (o ++ cb) e ->
  encode (wr_ber (dwriter_of (DStruct set (FTaggedOption g t fs))) (None, y)) = Ok (e, blen e)
  /\ encode (wr_der (dwriter_of (DStruct set (FTaggedOption g t fs))) (None, y)) = Ok (e, blen e)
  /\ forall idb lenb, ident_shortest Universal true (if set then 17 else 16) idb ->
       length_shortest (Definite (blen cb + 2)) lenb ->
       to_vec (wr_ber (dwriter_of (DStruct set (FOption t fs))) (None, y)) = Ok (idb ++ lenb ++ cb)
       /\ to_vec (wr_der (dwriter_of (DStruct set (FOption t fs))) (None, y)) = Ok (idb ++ lenb ++ cb).
Proof.
  intros Hwf Hw C Hn Hg O Oe.
  destruct (fo_writes _ _ _ _ _ _ _ _ _ _ (proj1 (proj2 derive_sound) B fs Hwf true) (conj eq_refl Hw) y cb C) as [[L1 W1] [L2 W2]]; [lia|].
  assert (Ho : blen o < 300).
  { pose proof (object_small _ _ _ _ _ O) as H. destruct (tg_kind g); [change (blen [0; 0]) with 2 in H|change (blen []) with 0 in H]; lia. }
  assert (P : wrote (tagged_part g none_tober) o).
  { unfold tagged_part. destruct (tg_kind g); split.
    - intros acc. cbn [explicit_part pt_len]. rewrite length_add_assoc. change (total_len none_tober) with (Definite 2). cbn [length_add].
      pose proof (object_total_len _ _ _ _ _ O Hg ltac:(reflexivity)) as T. change (blen [0; 0]) with 2 in T. rewrite T. reflexivity.
    - cbn [explicit_part pt_write]. rewrite encode_explicit_eq. apply (writes_object _ (tg_class g) true (tg_num g) [0; 0]); [|exact O|exact Hg|reflexivity].
      repeat split.
    - intros acc. cbn [implicit_part pt_len]. rewrite length_add_assoc. change (total_len none_tober) with (Definite 2).
      rewrite (same_size_header (tg_num g) 0 2) by (try lia; repeat split; lia).
      change (tb_content_len none_tober) with (Definite 0). cbn [length_add].
      pose proof (object_total_len _ _ _ _ _ O Hg ltac:(reflexivity)) as T. change (blen []) with 0 in T. rewrite T. reflexivity.
    - cbn [implicit_part pt_write]. change (encode (implicit_tober (tg_class g) false (tg_num g) none_tober) = Ok (o, blen o)).
      apply (writes_object _ (tg_class g) false (tg_num g) []); [|exact O|exact Hg|reflexivity]. repeat split. }
  assert (ET : forall ps l, parts_length ps l -> struct_tober (struct_tag set) ps = mk_tober EncGeneric Universal true (struct_tag set) l (parts_write ps)).
  { intros ps l L. unfold struct_tober. rewrite L. destruct l; reflexivity. }
  assert (Et : struct_tag set = if set then 17 else 16) by (destruct set; reflexivity).
  assert (Ht : struct_tag set < 2 ^ 32) by (destruct set; reflexivity).
  rewrite <- Et in *.
  assert (G : forall ps, wrote_all ps cb -> encode (struct_tober (struct_tag set) (tagged_part g none_tober :: ps)) = Ok (e, blen e)).
  { intros ps [Ll Lw]. rewrite (ET _ (Definite (blen (o ++ cb)))).
    - apply (writes_object _ Universal true (struct_tag set) (o ++ cb)); [|exact Oe|exact Ht|rewrite blen_app; lia].
      split; [reflexivity|]. split; [reflexivity|]. cbn [tb_write_content parts_write]. rewrite (proj2 P), Lw.
      cbn [wseq bind]. rewrite blen_app. reflexivity.
    - intros acc. cbn [parts_len]. rewrite (proj1 P). cbn [bind]. rewrite Ll, length_add_assoc. cbn [length_add].
      rewrite blen_app. reflexivity. }
  split; [apply G; split; assumption|]. split; [apply G; split; assumption|].
  intros idb lenb I1 I2.
  assert (Q : forall ps, wrote_all ps cb -> to_vec (struct_tober (struct_tag set) (option_part None :: ps)) = Ok (idb ++ lenb ++ cb)).
  { intros ps [Ll Lw]. rewrite (ET _ (Definite (blen cb + 2))).
    - unfold to_vec, encode. cbn [tb_write_content parts_write option_part pt_write option_encode]. rewrite Lw. cbn [wseq bind app].
      rewrite N.add_0_l. set (w := mk_tober _ _ _ _ _ _).
      destruct (write_header_ok w Universal true (struct_tag set) eq_refl) as (idb' & lenb' & E & _ & J1 & J2).
      { split; [exact Ht|]. intros m Em. unfold w in Em. cbn [tb_content_len] in Em. injection Em as <-. lia. }
      rewrite E. cbn [bind wseq]. rewrite <- app_assoc.
      rewrite (ident_shortest_unique _ _ _ _ _ I1 J1), (length_shortest_unique _ _ _ I2 J2). reflexivity.
    - intros acc. cbn [parts_len option_part pt_len]. change (option_total_len None) with (Ok (Definite 2)). cbn [bind].
      rewrite Ll, length_add_assoc. cbn [length_add]. rewrite N.add_comm. reflexivity. }
  split; apply Q; split; assumption.
Qed.
Print Assumptions C65_optional_absent.

(** An absent field with an explicit tag, with an implicit tag, and without. *)
Example C65_optional_absent_case :
  let g := mk_tagging KExplicit ContextSpecific 0 in let t := DTy (TBase (BUint 4)) in
  encode (wr_der (dwriter_of (DStruct false (FTaggedOption g t (FPlain t FNil)))) (None, (5%Z, tt))) = Ok ([0x30; 7; 0xa0; 2; 0; 0; 2; 1; 5], 9)
  /\ encode (wr_der (dwriter_of (DStruct false (FTaggedOption (mk_tagging KImplicit ContextSpecific 0) t (FPlain t FNil)))) (None, (5%Z, tt))) = Ok ([0x30; 5; 0x80; 0; 2; 1; 5], 7)
  /\ to_vec (wr_der (dwriter_of (DStruct false (FOption t (FPlain t FNil)))) (None, (5%Z, tt))) = Ok [0x30; 5; 2; 1; 5].
Proof. vm_compute. repeat split. Qed.

(** The explicit form is not even read. *)
Definition explicit_optional := DStruct false (FTaggedOption (explicit_ctx 1) (DTy (TBase BOctets)) (FPlain (DTy (TBase BBool)) FNil)).
Theorem C65_absent_refuted :
  to_vec (wr_der (dwriter_of explicit_optional) (None, (true, tt))) = Ok [0x30; 7; 0xa1; 2; 0; 0; 1; 1; 0xff]
  /\ ps_parse_der (dparser_of explicit_optional) [0x30; 7; 0xa1; 2; 0; 0; 1; 1; 0xff] = Err EUnexpectedTag
  /\ components_of true (FPlain (DTy (TBase BBool)) FNil) (true, tt) [1; 1; 0xff].
Proof.
  split; [vm_compute; reflexivity|]. split; [vm_compute; reflexivity|].
  exists [1; 1; 0xff], []. split; [|split; reflexivity].
  exists Universal, false, 1, [0xff], [1], [1]. split; [reflexivity|].
  split; [split; [exact Logic.I|reflexivity]|]. split; [apply (ids_low Universal false 1); lia|]. split; [apply (los_short 1); lia|reflexivity].
Qed.
Print Assumptions C65_absent_refuted.
