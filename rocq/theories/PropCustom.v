(** C93: the attributes [error] and [map_err] of the derive macros change errors only. *)
From Verif Require Import Base MHeader MEncode SHeader PArith PHeader PEncode MBer SBer PBer PIter PCodec PropBer.
From Verif Require Import MInt MCont SCont PCont PropTag PropItems MDerive MCustom.

(** ** Specification *)

(** Reading the fields of [s] one after the other from [i] stops with error [e] at a field whose errors go through
    [f]: the function given for it, or the conversion [conv] if none is. *)
Inductive fails {E} (conv : error -> E) : forall {T}, cstruct E T -> bytes -> error -> (error -> E) -> Prop :=
| fails_here A B m (k : kind A) (s : cstruct E B) i e :
    kind_plain k i = Err e -> fails conv (SCons m k s) i e (match m with Some f => f | None => conv end)
| fails_later A B m (k : kind A) (s : cstruct E B) i rem x e f :
    kind_plain k i = Ok (rem, x) -> fails conv s rem e f -> fails conv (SCons m k s) i e f.

(** Result [c] is result [r] with errors related by [R], missing octets by [Q]. *)
Definition same_but {E A} (R : error -> E -> Prop) (Q : N -> cres E A) (r : res A) (c : cres E A) : Prop :=
  match r with Ok x => c = COk x | Err e => exists e', c = CErr e' /\ R e e' | Incomplete n => c = Q n | Panic => c = CPanic end.

(** ** Proofs *)

Lemma kind_custom_new {E A} (conv : error -> E) m (k : kind A) i :
  kind_custom (fun A => wrap_new conv m (A := A)) k i = cmap (on_err conv m) (kind_plain k i).
Proof.
  assert (G : forall B (ph : bytes -> res (bytes * header)) t (p : bytes -> res (bytes * B)),
    ctagged_optional (fun A => wrap_new conv m (A := A)) ph t p i = cmap (on_err conv m) (tagged_optional ph t p i)).
  { intros. unfold ctagged_optional, tagged_optional, wrap_new. destruct (blen i =? 0); [reflexivity|].
    destruct (ph i) as [[r h]| | |]; cbn; try reflexivity. destruct (h_tag h =? t); [|reflexivity].
    destruct (p i) as [[r' x]| | |]; reflexivity. }
  destruct k; cbn [kind_custom kind_plain]; try apply G.
  - reflexivity.
  - unfold cdefault, with_default, wrap_new. destruct (p i) as [[r x]| | |]; reflexivity.
  - rewrite G. unfold cdefault, with_default. destruct (tagged_optional ph t p i) as [[r x]| | |]; reflexivity.
Qed.

Lemma kind_custom_old {E A} (conv : error -> E) m (k : kind A) i :
  kind_custom (fun A => wrap_old conv m (A := A)) k i = cflat conv (cmap (on_err conv m) (kind_plain k i)).
Proof.
  assert (G : forall B (ph : bytes -> res (bytes * header)) t (p : bytes -> res (bytes * B)),
    ctagged_optional (fun A => wrap_old conv m (A := A)) ph t p i = cflat conv (cmap (on_err conv m) (tagged_optional ph t p i))).
  { intros. unfold ctagged_optional, tagged_optional, wrap_old. destruct (blen i =? 0); [reflexivity|].
    destruct (ph i) as [[r h]| | |]; cbn; try reflexivity. destruct (h_tag h =? t); [|reflexivity].
    destruct (p i) as [[r' x]| | |]; reflexivity. }
  destruct k; cbn [kind_custom kind_plain]; try apply G.
  - reflexivity.
  - unfold cdefault, with_default, wrap_old. destruct (p i) as [[r x]| | |]; reflexivity.
  - rewrite G. unfold cdefault, with_default. destruct (tagged_optional ph t p i) as [[r x]| | |]; reflexivity.
Qed.

Lemma fields_new {E T} (conv : error -> E) (s : cstruct E T) i :
  same_but (fun e e' => exists f, fails conv s i e f /\ e' = f e) CIncomplete
    (plain_fields s i) (custom_fields (fun m _ => wrap_new conv m) s i).
Proof.
  revert i. induction s as [|A B m k s IH]; intros i; cbn [plain_fields custom_fields]; [reflexivity|].
  unfold field. rewrite kind_custom_new. destruct (kind_plain k i) as [[rem x]|e|n|] eqn:E1; cbn; try reflexivity.
  - specialize (IH rem). destruct (plain_fields s rem) as [[rem' y]|e|n|]; cbn in *; try (rewrite IH; reflexivity).
    destruct IH as (e' & -> & f & F & ->). cbn. exists (f e). split; [reflexivity|]. exists f. split; [|reflexivity].
    eapply fails_later; eassumption.
  - eexists. split; [reflexivity|]. eexists. split; [apply fails_here, E1|]. destruct m; reflexivity.
Qed.

Lemma fields_old {E T} (conv : error -> E) (s : cstruct E T) i :
  same_but (fun e e' => exists f, fails conv s i e f /\ e' = f e) (fun n => CErr (conv (EIncomplete n)))
    (plain_fields s i) (custom_fields (fun m _ => wrap_old conv m) s i).
Proof.
  revert i. induction s as [|A B m k s IH]; intros i; cbn [plain_fields custom_fields]; [reflexivity|].
  unfold field. rewrite kind_custom_old. destruct (kind_plain k i) as [[rem x]|e|n|] eqn:E1; cbn; try reflexivity.
  - specialize (IH rem). destruct (plain_fields s rem) as [[rem' y]|e|n|]; cbn in *; try (rewrite IH; reflexivity).
    destruct IH as (e' & -> & f & F & ->). cbn. exists (f e). split; [reflexivity|]. exists f. split; [|reflexivity].
    eapply fails_later; eassumption.
  - eexists. split; [reflexivity|]. eexists. split; [apply fails_here, E1|]. destruct m; reflexivity.
Qed.

Lemma fails_plain {E T} (conv : error -> E) (s : cstruct E T) i e f : fails conv s i e f -> plain_fields s i = Err e.
Proof.
  induction 1 as [A B m k s i e H|A B m k s i rem x e f H F IH]; cbn [plain_fields]; unfold field; rewrite H; cbn; [reflexivity|].
  rewrite IH. reflexivity.
Qed.

(** ** The theorems *)

(** [BerParser], [DerParser] and [FromDer]: the errors of fields go through their functions, all others through
    the conversion; everything else is as without attributes. *)
Theorem C93_parse {E T} (conv : error -> E) tag (s : cstruct E T) i :
  bytes_ok i ->
  same_but (fun e e' => (exists c d rem f, starts_with_ber_object c true tag d i rem /\ fails conv s d e f /\ e' = f e)
                        \/ ((forall c d rem, ~ starts_with_ber_object c true tag d i rem) /\ e' = conv e))
    CIncomplete (ps_parse_ber (struct_parser tag (plain_fields s) (plain_fields s)) i) (custom_parse_ber conv tag s i)
  /\ same_but (fun e e' => (exists c d rem f, starts_with_object c true tag d i rem /\ fails conv s d e f /\ e' = f e)
                        \/ ((forall c d rem, ~ starts_with_object c true tag d i rem) /\ e' = conv e))
    CIncomplete (ps_parse_der (struct_parser tag (plain_fields s) (plain_fields s)) i) (custom_parse_der conv tag s i).
Proof.
  intros Hi. split.
  - cbn [struct_parser default_parser codec_parser ps_parse_ber]. unfold parse_ber, custom_parse_ber. cbn [accept_tag ber_content].
    assert (Any : forall rem a, parse_ber_any i = Ok (rem, a) ->
       forall c d rem', starts_with_ber_object c true tag d i rem' ->
         h_tag (any_header a) = tag /\ h_constructed (any_header a) = true /\ any_data a = d).
    { intros rem a Ea c d rem' S. destruct (ber_object_any _ _ _ _ _ _ Hi S) as (h & E' & _ & Hk & Ht).
      rewrite E' in Ea. injection Ea as _ <-. auto. }
    assert (None' : forall r, parse_ber_any i = r -> (forall x, r <> Ok x) -> forall c d rem, ~ starts_with_ber_object c true tag d i rem).
    { intros r Er Hr c d rem S. destruct (ber_object_any _ _ _ _ _ _ Hi S) as (h & E' & _). rewrite E' in Er.
      exact (Hr _ (eq_sym Er)). }
    unfold parse_ber_any in Any, None'.
    destruct (header_parse_ber i) as [[i2 h]|e|n|] eqn:Eh; cbn [bind cmap cbind same_but] in *; try reflexivity.
    2: { exists (conv e). split; [reflexivity|]. right. split; [|reflexivity]. apply (None' _ eq_refl). congruence. }
    destruct (is_tag tag (h_tag h)) eqn:Et.
    2: { cbn. exists (conv EUnexpectedTag). split; [reflexivity|]. right. split; [|reflexivity].
      intros c d rem S. destruct (ber_object_content h i2 MAX_RECURSION) as [[i3 data]|e|n|] eqn:Ec; cbn [bind] in *;
        try (apply (None' _ eq_refl) in S; congruence).
      destruct (Any _ _ eq_refl _ _ _ S) as (H & _). cbn in H. unfold is_tag in Et. rewrite H, N.eqb_refl in Et. discriminate. }
    destruct (ber_object_content h i2 MAX_RECURSION) as [[i3 data]|e|n|] eqn:Ec; cbn [bind cmap cbind same_but] in *; try reflexivity.
    2: { exists (conv e). split; [reflexivity|]. right. split; [|reflexivity]. apply (None' _ eq_refl). congruence. }
    unfold struct_content, custom_content, assert_constructed.
    destruct (h_constructed h) eqn:Ek; cbn [bind cmap cbind].
    + pose proof (fields_new conv s data) as F.
      destruct (plain_fields s data) as [[r v]|e|n|]; cbn [bind same_but] in *; try (rewrite F; reflexivity).
      destruct F as (e' & -> & f & F & ->). cbn. exists (f e). split; [reflexivity|]. left.
      assert (S : parse_ber_any i = Ok (i3, mk_any h data)) by (unfold parse_ber_any; rewrite Eh; cbn [bind]; rewrite Ec; reflexivity).
      apply any_ber_object in S as (S & _ & _); [|exact Hi]. cbn in S. rewrite Ek in S.
      apply N.eqb_eq in Et. rewrite Et in S. eauto 8.
    + eexists. split; [reflexivity|]. right. split; [|reflexivity]. intros c d rem S.
      destruct (Any _ _ eq_refl _ _ _ S) as (_ & H & _). cbn in H. congruence.
  - cbn [struct_parser default_parser codec_parser ps_parse_der]. unfold parse_der, custom_parse_der. cbn [accept_tag der_content].
    assert (Any : forall rem a, parse_der_any i = Ok (rem, a) ->
       forall c d rem', starts_with_object c true tag d i rem' ->
         h_tag (any_header a) = tag /\ h_constructed (any_header a) = true /\ any_data a = d).
    { intros rem a Ea c d rem' S. destruct (der_object_any _ _ _ _ _ _ Hi S) as (h & E' & _ & Hk & Ht).
      rewrite E' in Ea. injection Ea as _ <-. auto. }
    assert (None' : forall r, parse_der_any i = r -> (forall x, r <> Ok x) -> forall c d rem, ~ starts_with_object c true tag d i rem).
    { intros r Er Hr c d rem S. destruct (der_object_any _ _ _ _ _ _ Hi S) as (h & E' & _). rewrite E' in Er.
      exact (Hr _ (eq_sym Er)). }
    unfold parse_der_any, length_assert_definite, der_get_content in Any, None'.
    destruct (header_parse_der i) as [[i2 h]|e|n|] eqn:Eh; cbn [bind cmap cbind same_but] in *; try reflexivity.
    2: { exists (conv e). split; [reflexivity|]. right. split; [|reflexivity]. apply (None' _ eq_refl). congruence. }
    destruct (h_length h) as [l|] eqn:El; cbn [is_definite bind] in *.
    2: { eexists. split; [reflexivity|]. right. split; [|reflexivity]. apply (None' _ eq_refl). congruence. }
    destruct (is_tag tag (h_tag h)) eqn:Et.
    2: { cbn. exists (conv EUnexpectedTag). split; [reflexivity|]. right. split; [|reflexivity].
      intros c d rem S. destruct (take l i2) as [[i3 data]|e|n|] eqn:Ec; cbn [bind] in *;
        try (apply (None' _ eq_refl) in S; congruence).
      destruct (Any _ _ eq_refl _ _ _ S) as (H & _). cbn in H. unfold is_tag in Et. rewrite H, N.eqb_refl in Et. discriminate. }
    destruct (take l i2) as [[i3 data]|e|n|] eqn:Ec; cbn [bind cmap cbind same_but] in *; try reflexivity.
    2: { exists (conv e). split; [reflexivity|]. right. split; [|reflexivity]. apply (None' _ eq_refl). congruence. }
    unfold struct_content, custom_content, assert_constructed.
    destruct (h_constructed h) eqn:Ek; cbn [bind cmap cbind].
    + pose proof (fields_new conv s data) as F.
      destruct (plain_fields s data) as [[r v]|e|n|]; cbn [bind same_but] in *; try (rewrite F; reflexivity).
      destruct F as (e' & -> & f & F & ->). cbn. exists (f e). split; [reflexivity|]. left.
      assert (S : parse_der_any i = Ok (i3, mk_any h data)).
      { unfold parse_der_any, length_assert_definite, der_get_content. rewrite Eh. cbn [bind]. rewrite El. cbn [is_definite bind].
        rewrite Ec. reflexivity. }
      apply any_der_object in S as (S & _ & _); [|exact Hi]. cbn in S. rewrite Ek in S.
      apply N.eqb_eq in Et. rewrite Et in S. eauto 8.
    + eexists. split; [reflexivity|]. right. split; [|reflexivity]. intros c d rem S.
      destruct (Any _ _ eq_refl _ _ _ S) as (_ & H & _). cbn in H. congruence.
Qed.
Print Assumptions C93_parse.

(** [FromDer], the older reader, does not look at the form. *)
Theorem C93_from_der {E T} (conv : error -> E) tag (s : cstruct E T) cs i :
  bytes_ok i ->
  same_but (fun e e' => (exists c k d rem f, starts_with_object c k tag d i rem /\ fails conv s d e f /\ e' = f e)
                        \/ ((forall c k d rem, ~ starts_with_object c k tag d i rem) /\ e' = conv e))
    CIncomplete (lg_from_der (struct_legacy tag (plain_fields s) (plain_fields s) cs) i) (custom_from_der conv tag s i).
Proof.
  intros Hi. cbn [lg_from_der struct_legacy]. unfold struct_from_der, custom_from_der. rewrite from_der_any_eq.
  assert (Any : forall c k d rem', starts_with_object c k tag d i rem' ->
     exists h, parse_der_any i = Ok (rem', mk_any h d) /\ h_tag h = tag).
  { intros c k d rem' S. destruct (der_object_any _ _ _ _ _ _ Hi S) as (h & E' & _ & _ & Ht). eauto. }
  destruct (parse_der_any i) as [[rem a]|e|n|] eqn:Ea; cbn [bind cmap cbind same_but]; try reflexivity.
  - pose proof (any_der_object _ _ _ Hi Ea) as (S & Hd & _).
    destruct (assert_tag (any_header a) tag) as [[]|e|n|] eqn:Et; cbn [bind cmap cbind same_but]; try reflexivity.
    + apply assert_tag_ok in Et. rewrite Et in S. pose proof (fields_new conv s (any_data a)) as F.
      destruct (plain_fields s (any_data a)) as [[r v]|e|n|]; cbn [bind same_but] in *; try (rewrite F; reflexivity).
      destruct F as (e' & -> & f & F & ->). cbn. exists (f e). split; [reflexivity|]. left. eauto 10.
    + exists (conv e). split; [reflexivity|]. right. split; [|reflexivity]. intros c k d r S'.
      destruct (Any _ _ _ _ S') as (h & Eh & Ht). injection Eh as _ ->. apply assert_tag_ok in Ht. cbn in Et. congruence.
  - exists (conv e). split; [reflexivity|]. right. split; [|reflexivity]. intros c k d r S'.
    destruct (Any _ _ _ _ S') as (h & Eh & _). discriminate.
Qed.
Print Assumptions C93_from_der.

(** [TryFrom<Any>] and [FromBer]: missing octets in a field are an error as well, given by the conversion. *)
Theorem C93_from_ber_partial {E T} (conv : error -> E) tag (s : cstruct E T) cs i :
  bytes_ok i ->
  let L := struct_legacy tag (plain_fields s) (plain_fields s) cs in
  (forall a,
    same_but (fun e e' => (exists f, h_tag (any_header a) = tag /\ fails conv s (any_data a) e f /\ e' = f e)
                       \/ (h_tag (any_header a) = tag /\ exists n, plain_fields s (any_data a) = Incomplete n
                           /\ e = EIncomplete n /\ e' = conv e)
                       \/ (h_tag (any_header a) <> tag /\ e' = conv e))
      CIncomplete (lg_try_from L a) (custom_try_from conv tag s a))
  /\ same_but (fun e e' =>
          (exists c k d rem f, starts_with_ber_object c k tag d i rem /\ fails conv s d e f /\ e' = f e)
       \/ (exists c k d rem n, starts_with_ber_object c k tag d i rem /\ plain_fields s d = Incomplete n
             /\ e = EIncomplete n /\ e' = conv e)
       \/ ((forall c k d rem, ~ starts_with_ber_object c k tag d i rem) /\ e' = conv e))
      CIncomplete (lg_from_ber L i) (custom_from_ber conv tag s i).
Proof.
  intros Hi L.
  assert (TF : forall a,
    same_but (fun e e' => (exists f, h_tag (any_header a) = tag /\ fails conv s (any_data a) e f /\ e' = f e)
                       \/ (h_tag (any_header a) = tag /\ exists n, plain_fields s (any_data a) = Incomplete n
                           /\ e = EIncomplete n /\ e' = conv e)
                       \/ (h_tag (any_header a) <> tag /\ e' = conv e))
      CIncomplete (lg_try_from L a) (custom_try_from conv tag s a)).
  { intros a. cbn [L lg_try_from struct_legacy]. unfold struct_try_from, custom_try_from.
    destruct (assert_tag (any_header a) tag) as [[]|e|n|] eqn:Et; cbn [bind cmap cbind same_but].
    - apply assert_tag_ok in Et. pose proof (fields_old conv s (any_data a)) as F.
      destruct (plain_fields s (any_data a)) as [[r v]|e|n|] eqn:Ef; cbn [bind close same_but] in *; try (rewrite F; reflexivity).
      + destruct F as (e' & -> & f & F & ->). cbn. exists (f e). split; [reflexivity|]. left. eauto.
      + rewrite F. cbn. eexists. split; [reflexivity|]. right. left. eauto.
    - exists (conv e). split; [reflexivity|]. right. right. split; [|reflexivity]. rewrite <- assert_tag_ok. congruence.
    - exfalso. unfold assert_tag in Et. destruct (_ =? _); discriminate.
    - exfalso. unfold assert_tag in Et. destruct (_ =? _); discriminate. }
  split; [exact TF|]. cbn [L lg_from_ber struct_legacy]. unfold blanket_from_ber, custom_from_ber.
  assert (Any : forall c k d rem', starts_with_ber_object c k tag d i rem' ->
     exists h, parse_ber_any i = Ok (rem', mk_any h d) /\ h_tag h = tag).
  { intros c k d rem' S. destruct (ber_object_any _ _ _ _ _ _ Hi S) as (h & E' & _ & _ & Ht). eauto. }
  destruct (parse_ber_any i) as [[rem a]|e|n|] eqn:Ea; cbn [bind cmap cbind same_but]; try reflexivity.
  - pose proof (any_ber_object _ _ _ Hi Ea) as (S & Hd & _). specialize (TF a). cbn [L lg_try_from struct_legacy] in TF.
    destruct (struct_try_from tag (plain_fields s) a) as [v|e|n|]; cbn [bind same_but] in *; try (rewrite TF; reflexivity).
    destruct TF as (e' & -> & [(f & Ht & F & ->)|[(Ht & n & F & -> & ->)|(Ht & ->)]]); cbn; (eexists; split; [reflexivity|]).
    + left. rewrite Ht in S. eauto 10.
    + right. left. rewrite Ht in S. eauto 10.
    + right. right. split; [|reflexivity]. intros c k d r S'. destruct (Any _ _ _ _ S') as (h & Eh & Ht').
      injection Eh as _ ->. cbn in Ht. congruence.
  - exists (conv e). split; [reflexivity|]. right. right. split; [|reflexivity]. intros c k d r S'.
    destruct (Any _ _ _ _ S') as (h & Eh & _). discriminate.
Qed.
Print Assumptions C93_from_ber_partial.

(** [fails] is what it says: it determines the error of the fields without attributes. *)
Theorem C93_fails {E T} (conv : error -> E) (s : cstruct E T) i e :
  plain_fields s i = Err e <-> exists f, fails conv s i e f.
Proof.
  split.
  - intros H. pose proof (fields_new conv s i) as F. rewrite H in F. cbn in F. destruct F as (_ & _ & f & F & _). eauto.
  - intros (f & F). eapply fails_plain, F.
Qed.
Print Assumptions C93_fails.

(** ** Cases *)

(** A BOOLEAN with a function and an INTEGER without; errors are natural numbers: 7 from the function, 1 from the
    conversion of a wrong tag, 2 from that of missing octets, 0 from that of others. *)
Definition conv_n (e : error) : N := match e with EUnexpectedTag => 1 | EIncomplete _ => 2 | _ => 0 end.
Definition two_fields : cstruct N (bool * (Z * unit)) :=
  SCons (Some (fun _ => 7)) (KCall (parse_ber bool_codec)) (SCons None (KCall (parse_ber (int_codec 4))) SNil).

Example C93_case :
  custom_parse_ber conv_n 16 two_fields [48; 6; 1; 1; 255; 2; 1; 5; 9] = COk ([9], (true, (5%Z, tt)))
  /\ custom_parse_ber conv_n 16 two_fields [48; 6; 2; 1; 255; 2; 1; 5] = CErr 7
  /\ custom_parse_ber conv_n 16 two_fields [48; 6; 1; 1; 255; 3; 1; 5] = CErr 1
  /\ custom_parse_ber conv_n 16 two_fields [49; 0] = CErr 1
  /\ custom_parse_ber conv_n 16 two_fields [48; 2; 1; 1] = CIncomplete 1
  /\ custom_from_ber conv_n 16 two_fields [48; 6; 2; 1; 255; 2; 1; 5] = CErr 7
  /\ custom_from_ber conv_n 16 two_fields [48; 3; 1; 1; 255] = CErr 2
  /\ custom_from_der conv_n 16 two_fields [48; 6; 2; 1; 255; 2; 1; 5] = CErr 7
  /\ custom_parse_der conv_n 16 two_fields [48; 6; 1; 1; 255; 3; 1; 5] = CErr 1.
Proof. vm_compute. repeat split. Qed.

(** A tagged optional field with a function: the errors of reading its header go through it too. *)
Example C93_optional_case :
  let s := SCons (Some (fun _ => 7)) (KTagged header_parse_ber 0 (ps_parse_ber (explicit_parser ContextSpecific 0 (codec_parser bool_codec)))) SNil in
  custom_parse_ber conv_n 16 s [48; 5; 160; 3; 1; 1; 255] = COk ([], (Some true, tt))
  /\ custom_parse_ber conv_n 16 s [48; 0] = COk ([], (None, tt))
  /\ custom_parse_ber conv_n 16 s [48; 5; 160; 3; 2; 1; 255] = CErr 7
  /\ custom_parse_ber conv_n 16 s [48; 2; 160; 255] = CErr 7.
Proof. vm_compute. repeat split. Qed.

(** ** Not every failure of a field goes through its function *)

(** A BOOLEAN cut short, with a function: [FromBer] gives the conversion of the error "incomplete", and [parse_ber]
    says that octets are missing although the object is complete. *)
Theorem C93_refuted :
  exists (s : cstruct N (bool * unit)) i, s = SCons (Some (fun _ => 7)) (KCall (parse_ber bool_codec)) SNil
    /\ i = [48; 2; 1; 1]
    /\ custom_from_ber conv_n 16 s i = CErr 2
    /\ custom_parse_ber conv_n 16 s i = CIncomplete 1
    /\ custom_from_der conv_n 16 s i = CIncomplete 1.
Proof. do 2 eexists. split; [reflexivity|]. split; [reflexivity|]. vm_compute. auto. Qed.
Print Assumptions C93_refuted.
