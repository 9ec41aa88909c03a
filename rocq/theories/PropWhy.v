(** C92: why [CheckDerConstraints::check_constraints] refuses an object. *)
From Verif Require Import Base MHeader MEncode SHeader PArith PHeader PEncode MBer SBer PBer PIter PCodec PropBer.
From Verif Require Import MInt SInt PInt PropInt MSeg SSeg PSeg MOid MText SText PropText.
From Verif Require Import MTime STime MCont SCont PCont SBase PBase PTypes PropCont PropTag PropItems PropTime MColl MDerive MCheck PropCheck.

(** Types whose check refuses the constructed form, and types whose check reads an integer. *)
Definition wants_primitive {A} (b : base A) : Prop :=
  match b with
  | BBool | BNull | BEnum | BUtcTime | BGeneralizedTime | BSequence | BSet => False
  | _ => True
  end.
Definition is_integer {A} (b : base A) : Prop := match b with BInt _ | BUint _ | BInteger => True | _ => False end.
Definition is_oid {A} (b : base A) : Prop := match b with BOid => True | _ => False end.
Definition is_enum {A} (b : base A) : Prop := match b with BEnum => True | _ => False end.
Definition is_bits {A} (b : base A) : Prop := match b with BBits => True | _ => False end.
Definition is_bool {A} (b : base A) : Prop := match b with BBool => True | _ => False end.
Definition is_time {A} (b : base A) : Prop := match b with BGeneralizedTime => True | _ => False end.

(** The rule that an object breaks, named by the error: form [k], length octets [l], contents [d].  Form first,
    then length, then contents. *)
Definition breaks {A} (b : base A) (k : bool) (l : blength) (d : bytes) (e : error) : Prop :=
  match e with
  | EConstructUnexpected => wants_primitive b /\ k = true
  | EIndefiniteLengthUnexpected => l = Indefinite /\ (is_enum b \/ (is_integer b \/ is_oid b) /\ k = false)
  | EDerConstraintFailed DCIntegerEmpty => is_integer b /\ k = false /\ l <> Indefinite /\ d = []
  | EDerConstraintFailed DCIntegerLeadingZeroes =>
      is_integer b /\ k = false /\ l <> Indefinite /\ exists y r, d = 0 :: y :: r /\ y < 128
  | EDerConstraintFailed DCIntegerLeadingFF =>
      is_integer b /\ k = false /\ l <> Indefinite /\ exists y r, d = 255 :: y :: r /\ 128 <= y
  | EDerConstraintFailed DCUnusedBitsNotZero =>
      is_bits b /\ k = false /\ exists u bs x, d = u :: bs ++ [x] /\ ~ (u <= 8 /\ x mod 2 ^ u = 0)
  | EInvalidLength => is_bits b /\ k = false /\ (d = [] \/ exists u, d = [u] /\ u <> 0)
  | EDerConstraintFailed DCInvalidBoolean => is_bool b /\ exists x r, d = x :: r /\ x <> 0 /\ x <> 255
  | EDerConstraintFailed DCMissingTimeZone => is_time b /\ ~ exists t, d = t ++ [90]
  | EDerConstraintFailed DCMissingSeconds => is_time b /\ (exists t, d = t ++ [90]) /\ In 44 d
  | _ => False
  end.

(** ** Proofs *)

Lemma ends_with_z d : last d 0 = 90 <-> exists t, d = t ++ [90].
Proof.
  split.
  - intros H. destruct d as [|x r] eqn:E; [discriminate|]. rewrite <- E in *.
    destruct (exists_last (l := d) ltac:(congruence)) as (t & y & Ey). rewrite Ey in *. rewrite last_last in H. subst y. eauto.
  - intros (t & ->). apply last_last.
Qed.

Lemma gen_breaks k l d e : gen_der_text d = Err e <-> breaks BGeneralizedTime k l d e.
Proof.
  unfold gen_der_text.
  assert (X : existsb (fun b => b =? 44) d = true <-> In 44 d).
  { rewrite existsb_exists. split; [intros (x & I & E); apply N.eqb_eq in E as ->; exact I|intros I; exists 44; auto]. }
  destruct (N.eqb_spec (last d 0) 90) as [E|E]; cbn [negb]; rewrite ends_with_z in E.
  - destruct (existsb (fun b => b =? 44) d).
    + split.
      * intros H. injection H as <-. cbn. tauto.
      * destruct e as [| | | | | | | | | | | | | | | |c| | | | | |]; cbn; try tauto; destruct c; tauto.
    + assert (~ In 44 d) by (intros I; apply X in I; discriminate).
      split; [discriminate|]. destruct e as [| | | | | | | | | | | | | | | |c| | | | | |]; cbn; try tauto; destruct c; tauto.
  - split.
    + intros H. injection H as <-. cbn. tauto.
    + destruct e as [| | | | | | | | | | | | | | | |c| | | | | |]; cbn; try tauto; destruct c; tauto.
Qed.

Lemma int_breaks {A} (b : base A) a e : is_integer b ->
  (check_der_int a = Err e <-> breaks b (h_constructed (any_header a)) (h_length (any_header a)) (any_data a) e).
Proof.
  intros Hb. unfold check_der_int, assert_primitive, length_assert_definite.
  assert (P : wants_primitive b) by (destruct b; cbn in *; tauto).
  assert (N : ~ is_enum b /\ ~ is_bits b /\ ~ is_bool b /\ ~ is_time b) by (destruct b; cbn in *; tauto).
  destruct (h_constructed (any_header a)); cbn [bind].
  { split; [intros H; injection H as <-; cbn; tauto|].
    destruct e as [| | | | | | | | | | | | | | | |c| | | | | |]; cbn; try tauto; try (intros; exfalso; intuition congruence);
      destruct c; intros; exfalso; intuition congruence. }
  destruct (h_length (any_header a)) as [n|]; cbn [is_definite bind].
  2:{ split; [intros H; injection H as <-; cbn; tauto|].
      destruct e as [| | | | | | | | | | | | | | | |c| | | | | |]; cbn; try tauto; try (intros; exfalso; intuition congruence);
        destruct c; intros; exfalso; intuition congruence. }
  assert (D : Definite n <> Indefinite) by discriminate.
  split.
  - destruct (any_data a) as [|x [|y r]]; cbn [check_der_int_input]; intros H; try discriminate.
    + injection H as <-. cbn. tauto.
    + destruct (N.eqb_spec x 0) as [-> |]; cbn [andb] in H.
      * destruct (N.ltb_spec y 0x80); cbn in H; [|discriminate]. injection H as <-. cbn. repeat split; try assumption. exists y, r. auto.
      * destruct (N.eqb_spec x 0xff) as [-> |]; cbn [andb] in H; [|discriminate].
        destruct (N.leb_spec 0x80 y); [|discriminate]. injection H as <-. cbn. repeat split; try assumption. exists y, r. auto.
  - destruct e as [| | | | | | | | | | | | | | | |c| | | | | |]; cbn; try tauto; try (intros; exfalso; intuition congruence).
    destruct c; try (intros; exfalso; intuition congruence).
    + intros (_ & _ & _ & ->). reflexivity.
    + intros (_ & _ & _ & y & r & -> & H). cbn [check_der_int_input]. apply N.ltb_lt in H. rewrite H. reflexivity.
    + intros (_ & _ & _ & y & r & -> & H). cbn [check_der_int_input]. apply N.leb_le in H. rewrite H. reflexivity.
Qed.

Lemma bits_breaks a e : bytes_ok (any_data a) ->
  (bitstring_check a = Err e <-> breaks BBits (h_constructed (any_header a)) (h_length (any_header a)) (any_data a) e).
Proof.
  intros Hd. unfold bitstring_check, assert_primitive. destruct (h_constructed (any_header a)); cbn [bind].
  { split; [intros H; injection H as <-; cbn; tauto|].
    destruct e as [| | | | | | | | | | | | | | | |c| | | | | |]; cbn; try tauto; try (intros; exfalso; intuition congruence);
      destruct c; intros; exfalso; intuition congruence. }
  destruct (any_data a) as [|u [|y r]].
  - split; [intros H; injection H as <-; cbn; tauto|].
    destruct e as [| | | | | | | | | | | | | | | |c| | | | | |]; cbn; try tauto; try (intros; exfalso; intuition congruence);
      destruct c; try (intros; exfalso; intuition congruence). intros (_ & _ & u & bs & x & E & _). discriminate.
  - destruct (N.eqb_spec u 0) as [-> |N].
    + split; [discriminate|].
      destruct e as [| | | | | | | | | | | | | | | |c| | | | | |]; cbn; try tauto; try (intros; exfalso; intuition congruence).
      * intros (_ & _ & [E|(u & E & H)]); [discriminate|congruence].
      * destruct c; try (intros; exfalso; intuition congruence).
        intros (_ & _ & u & bs & x & E & _). injection E as _ E. destruct bs; discriminate.
    + split; [intros H; injection H as <-; cbn; repeat split; right; exists u; auto|].
      destruct e as [| | | | | | | | | | | | | | | |c| | | | | |]; cbn; try tauto; try (intros; exfalso; intuition congruence).
      destruct c; try (intros; exfalso; intuition congruence).
      intros (_ & _ & u' & bs & x & E & _). injection E as _ E. destruct bs; discriminate.
  - destruct (exists_last (l := y :: r) ltac:(discriminate)) as (bs & x & E). rewrite E in *. rewrite last_last.
    assert (Hx : x < 256). { inversion Hd as [|? ? _ H]; subst. apply Forall_app in H as [_ H]. inversion H; assumption. }
    pose proof (trailing_zeros_spec x u Hx) as T.
    destruct (bs ++ [x]) as [|z zs] eqn:Ez; [destruct bs; discriminate|]. rewrite <- Ez.
    replace (last (bs ++ [x]) 0) with x by (rewrite last_last; reflexivity).
    split.
    + intros H. destruct (trailing_zeros8 x <? u) eqn:L; [|discriminate]. injection H as <-. cbn. repeat split.
      exists u, bs, x. split; [reflexivity|]. rewrite <- T. discriminate.
    + destruct e as [| | | | | | | | | | | | | | | |c| | | | | |]; cbn; try tauto; try (intros; exfalso; intuition congruence).
      * intros (_ & _ & [H|(u' & H & _)]); [discriminate|]. exfalso. injection H as _ H. destruct bs; discriminate.
      * destruct c; try (intros; exfalso; intuition congruence).
        intros (_ & _ & u' & bs' & x' & H & H'). injection H as <- H. apply app_inj_tail in H as [<- <-]. rewrite <- T in H'.
        destruct (trailing_zeros8 x <? u); [reflexivity|tauto].
Qed.

(** ** The theorem *)

(** The error of the check is the first rule broken; BOOLEAN without contents panics, and the check never asks for
    more input. *)
Theorem C92_why {A} (b : base A) a :
  bytes_ok (any_data a) ->
  let check := lg_check (legacy_of (TBase b)) a in
  (forall e, check = Err e <-> breaks b (h_constructed (any_header a)) (h_length (any_header a)) (any_data a) e)
  /\ (check = Panic <-> is_bool b /\ any_data a = [])
  /\ (forall n, check <> Incomplete n).
Proof.
  intros Hd check. subst check. change (lg_check (legacy_of (TBase b)) a) with (check_constraints (base_codec b) a).
  assert (G : forall c : res unit, (match c with Ok _ | Err _ => True | _ => False end) -> ~ is_bool b ->
              (c = Panic <-> is_bool b /\ any_data a = []) /\ (forall n, c <> Incomplete n)).
  { intros [u|e|n|] H N; try contradiction; (split; [split; [discriminate|tauto]|discriminate]). }
  assert (I : is_integer b -> match check_der_int a with Ok _ | Err _ => True | _ => False end).
  { intros _. unfold check_der_int, assert_primitive, length_assert_definite, check_der_int_input.
    destruct (h_constructed _), (h_length _), (any_data a) as [|x [|y r]]; cbn; trivial.
    destruct (_ && _); [exact Logic.I|]. destruct (_ && _); exact Logic.I. }
  assert (P : forall e, wants_primitive b -> ~ is_integer b -> ~ is_oid b -> ~ is_bits b ->
     (check_primitive a = Err e <-> breaks b (h_constructed (any_header a)) (h_length (any_header a)) (any_data a) e)).
  { intros e W N1 N2 N3. assert (N4 : ~ is_enum b /\ ~ is_bool b /\ ~ is_time b) by (destruct b; cbn in *; tauto).
    unfold check_primitive, assert_primitive. split.
    - destruct (h_constructed (any_header a)); intros H; [injection H as <-; cbn; tauto|discriminate].
    - destruct e as [| | | | | | | | | | | | | | | |c| | | | | |]; cbn; try tauto; try (intros; exfalso; intuition congruence).
      + intros (_ & ->). reflexivity.
      + destruct c; tauto. }
  assert (P' : match check_primitive a with Ok _ | Err _ => True | _ => False end).
  { unfold check_primitive, assert_primitive. destruct (h_constructed _); exact Logic.I. }
  assert (Z : forall e, ~ wants_primitive b -> ~ is_enum b -> ~ is_bool b -> ~ is_time b ->
     (@Ok unit tt = Err e <-> breaks b (h_constructed (any_header a)) (h_length (any_header a)) (any_data a) e)).
  { intros e N1 N2 N3 N4. assert (N5 : ~ is_integer b /\ ~ is_oid b /\ ~ is_bits b) by (destruct b; cbn in *; tauto).
    split; [discriminate|]. destruct e as [| | | | | | | | | | | | | | | |c| | | | | |]; cbn; try tauto. destruct c; tauto. }
  destruct b; cbn [base_codec];
    try (split; [intros e; apply int_breaks; exact Logic.I|apply G; [apply I; exact Logic.I|exact (fun x => x)]]);
    try (split; [intros e; apply P; cbn; tauto|apply G; [exact P'|exact (fun x => x)]]);
    try (split; [intros e; apply Z; cbn; tauto|apply G; [exact Logic.I|exact (fun x => x)]]).
  - cbn [check_constraints bool_codec]. unfold boolean_check. destruct (any_data a) as [|x r] eqn:D.
    + split; [|split; [cbn; tauto|discriminate]]. intros e. split; [discriminate|].
      destruct e as [| | | | | | | | | | | | | | | |c| | | | | |]; cbn; try tauto. destruct c; cbn; try tauto.
      intros (_ & x & r & E & _). discriminate.
    + split; [|split; [|intros n; destruct (_ || _); discriminate]].
      * intros e. split.
        -- destruct (N.eqb_spec x 0), (N.eqb_spec x 0xff); cbn [orb]; intros H; try discriminate. injection H as <-. cbn. split; [exact Logic.I|].
           exists x, r. auto.
        -- destruct e as [| | | | | | | | | | | | | | | |c| | | | | |]; cbn; try tauto. destruct c; cbn; try tauto.
           intros (_ & x' & r' & E & N0 & N1). injection E as <- <-. apply N.eqb_neq in N0, N1. rewrite N0, N1. reflexivity.
      * split; [destruct (_ || _); discriminate|intros [_ E]; discriminate].
  - cbn [check_constraints enum_codec]. unfold length_assert_definite. split.
    + intros e. destruct (h_length (any_header a)); cbn [is_definite].
      * split; [discriminate|]. destruct e as [| | | | | | | | | | | | | | | |c| | | | | |]; cbn; try tauto; try (intros; exfalso; intuition congruence).
        destruct c; tauto.
      * split; [intros H; injection H as <-; cbn; tauto|].
        destruct e as [| | | | | | | | | | | | | | | |c| | | | | |]; cbn; try tauto. destruct c; tauto.
    + apply G; [destruct (h_length _); exact Logic.I|exact (fun x => x)].
  - split; [intros e; apply bits_breaks, Hd|]. apply G; [|exact (fun x => x)]. cbn [check_constraints bitstring_codec].
    unfold bitstring_check, assert_primitive. destruct (h_constructed _); [exact Logic.I|]. cbn [bind].
    destruct (any_data a) as [|u [|y r]]; [exact Logic.I|destruct (_ =? _); exact Logic.I|destruct (_ <? _); exact Logic.I].
  - cbn [check_constraints oid_codec]. unfold oid_check, assert_primitive, length_assert_definite. split.
    + intros e. destruct (h_constructed (any_header a)), (h_length (any_header a)); cbn [is_definite bind];
        (split; [intros H; try discriminate; injection H as <-; cbn; tauto|]);
        (destruct e as [| | | | | | | | | | | | | | | |c| | | | | |]; cbn; try tauto; try (intros; exfalso; intuition congruence); destruct c; tauto).
    + apply G; [destruct (h_constructed _), (h_length _); exact Logic.I|exact (fun x => x)].
  - cbn [check_constraints gen_codec]. split; [intros e; apply gen_breaks|]. apply G; [|exact (fun x => x)].
    unfold gen_der_text. destruct (negb _); [exact Logic.I|]. destruct (existsb _ _); exact Logic.I.
Qed.
Print Assumptions C92_why.

Example C92_why_case :
  let long := mk_any (mk_header Universal false 2 Indefinite None None) [0; 7] in
  let check (t : ty Z) := lg_check (legacy_of t) in
  check (TBase (BInt 4)) (obj true 2 [0; 7]) = Err EConstructUnexpected
  /\ check (TBase (BInt 4)) long = Err EIndefiniteLengthUnexpected
  /\ check (TBase (BInt 4)) (obj false 2 [0; 7]) = Err (EDerConstraintFailed DCIntegerLeadingZeroes)
  /\ lg_check (legacy_of (TBase BBool)) (obj false 1 [7]) = Err (EDerConstraintFailed DCInvalidBoolean)
  /\ lg_check (legacy_of (TBase BBits)) (obj false 3 [3; 4]) = Err (EDerConstraintFailed DCUnusedBitsNotZero).
Proof. vm_compute. repeat split. Qed.

(** ** An object of indefinite length *)

(** Every check that looks at the length names it; the methods of [Header] and [Any] that read contents in DER name the
    constraint, whatever the contents. *)
Theorem C92_indefinite {A} (t : ty A) (c : class) (n : N) (a : any) (i : bytes) :
  h_length (any_header a) = Indefinite ->
  check_constraints any_codec a = Err EIndefiniteLengthUnexpected
  /\ lg_check (legacy_of (TExplicit c n t)) a = Err EIndefiniteLengthUnexpected
  /\ lg_check (legacy_of (TImplicit c n t)) a = Err EIndefiniteLengthUnexpected
  /\ tp_explicit_check (legacy_of t) a = Err EIndefiniteLengthUnexpected
  /\ tp_implicit_check (legacy_of t) a = Err EIndefiniteLengthUnexpected
  /\ header_assert_definite (any_header a) = Err (EDerConstraintFailed DCIndefiniteLength)
  /\ header_der_content (any_header a) i = Err (EDerConstraintFailed DCIndefiniteLength).
Proof.
  intros E. cbn [check_constraints any_codec legacy_of lg_check explicit_legacy implicit_legacy].
  unfold any_check_constraints, explicit_check, implicit_check, tp_explicit_check, tp_implicit_check, header_der_content,
    header_assert_definite, length_assert_definite. rewrite E. cbn. auto 10.
Qed.
Print Assumptions C92_indefinite.

Example C92_indefinite_case :
  let a := mk_any (mk_header ContextSpecific true 0 Indefinite None None) [5; 0] in
  lg_check (legacy_of (TExplicit ContextSpecific 0 (TBase BNull))) a = Err EIndefiniteLengthUnexpected
  /\ header_der_content (any_header a) [5; 0; 0; 0] = Err (EDerConstraintFailed DCIndefiniteLength).
Proof. vm_compute. auto. Qed.
