(** C92: what [CheckDerConstraints::check_constraints] accepts. *)
From Verif Require Import Base MHeader MEncode SHeader PArith PHeader PEncode MBer SBer PBer PIter PCodec PropBer.
From Verif Require Import MInt SInt PInt PropInt MSeg SSeg PSeg MOid MText SText PropText.
From Verif Require Import MTime STime MCont SCont PCont SBase PBase PTypes PropCont PropTag PropItems PropTime MColl MDerive MCheck.

(** ** What is checked *)

(** Objects of the primitive types: form [k], length octets [l], contents [d]. *)
Definition base_rule {A} (b : base A) (k : bool) (l : blength) (d : bytes) : Prop :=
  match b with
  | BBool => exists x r, d = x :: r /\ (x = 0 \/ x = 255)
  | BNull | BUtcTime | BSequence | BSet => True
  | BInt _ | BUint _ | BInteger => k = false /\ l <> Indefinite /\ shortest d
  | BEnum => l <> Indefinite
  | BOid => k = false /\ l <> Indefinite
  | BBits => k = false /\ (d = [0] \/ exists u bs x, d = u :: bs ++ [x] /\ u <= 8 /\ x mod 2 ^ u = 0)
  | BGeneralizedTime => (exists t, d = t ++ [90]) /\ ~ In 44 d
  | _ => k = false
  end.

(** The number by which a type goes. *)
Definition type_number {A} (t : ty A) : N :=
  match t with
  | TBase b => base_tag b
  | TVec _ | TArray _ _ => 16
  | TSetOf _ | TBTreeSet _ _ => 17
  | TExplicit _ n _ | TImplicit _ n _ => n
  end.

(** [d] is a list of objects of definite length, each satisfying [P]. *)
Definition objects_all (P : bool -> N -> blength -> bytes -> Prop) (d : bytes) : Prop :=
  exists es, d = concat es
    /\ Forall (fun e => exists c k n cb, starts_with_object c k n cb e [] /\ P k n (Definite (blen cb)) cb) es.

(** An object with form [k], tag number [n], length [l] and contents [d]; the class plays no part. *)
Fixpoint passes {A} (t : ty A) (k : bool) (n : N) (l : blength) (d : bytes) : Prop :=
  match t with
  | TBase b => base_rule b k l d
  | TVec t => n = 16 /\ k = true /\ objects_all (passes t) d
  | TArray _ _ => False
  | TSetOf t => n = 17 /\ k = true /\ objects_all (passes t) d
  | TBTreeSet _ t => n = 17 /\ k = true /\ objects_all (passes t) d
  | TExplicit _ _ t =>
      l <> Indefinite
      /\ exists c' k' n' l' idb lenb bs rest,
           readable_header c' k' n' l' idb lenb /\ impl_contents 50 l' bs /\ d = idb ++ lenb ++ bs ++ rest
           /\ passes t k' (n' mod 2 ^ 32) l' (content_of l' bs)
  | TImplicit _ _ t => l <> Indefinite /\ passes t k (type_number t) l d
  end.

(** ** Proofs *)

Lemma definite_ok l : length_assert_definite l = Ok tt <-> l <> Indefinite.
Proof. destruct l; cbn; split; congruence. Qed.

Lemma trailing_zeros_spec x u : x < 256 -> ((trailing_zeros8 x <? u) = false <-> u <= 8 /\ x mod 2 ^ u = 0).
Proof.
  intros Hx.
  assert (G : forallb (fun u => Bool.eqb (negb (trailing_zeros8 x <? u)) (x mod 2 ^ u =? 0)) [0; 1; 2; 3; 4; 5; 6; 7; 8]
              && (trailing_zeros8 x <=? 8) = true).
  { revert x Hx. apply (byte_forall (fun x => forallb (fun u => Bool.eqb (negb (trailing_zeros8 x <? u)) (x mod 2 ^ u =? 0))
      [0; 1; 2; 3; 4; 5; 6; 7; 8] && (trailing_zeros8 x <=? 8))). vm_compute. reflexivity. }
  apply andb_true_iff in G as [G G8]. apply N.leb_le in G8.
  destruct (N.le_gt_cases u 8) as [Hu|Hu].
  - assert (I : In u [0; 1; 2; 3; 4; 5; 6; 7; 8]) by (cbn; lia).
    pose proof (proj1 (forallb_forall _ _) G u I) as E. apply eqb_prop in E.
    rewrite <- (negb_true_iff (trailing_zeros8 x <? u)), E, N.eqb_eq. tauto.
  - split; [|lia]. intros H. apply N.ltb_ge in H. lia.
Qed.

Lemma bits_rule a : bytes_ok (any_data a) ->
  (bitstring_check a = Ok tt <-> base_rule BBits (h_constructed (any_header a)) (h_length (any_header a)) (any_data a)).
Proof.
  intros Hd. unfold bitstring_check, assert_primitive. cbn [base_rule].
  destruct (h_constructed (any_header a)); cbn [bind]; [split; [discriminate|intros [E _]; discriminate]|].
  destruct (any_data a) as [|u [|y r]].
  - split; [discriminate|]. intros (_ & [E|(u & bs & x & E & _)]); discriminate.
  - split.
    + destruct (N.eqb_spec u 0) as [-> |]; [auto|discriminate].
    + intros (_ & [E|(u' & bs & x & E & _)]); [injection E as ->; reflexivity|].
      exfalso. injection E as _ E. destruct bs; discriminate.
  - destruct (exists_last (l := y :: r) ltac:(discriminate)) as (bs & x & E). rewrite E in *. rewrite last_last.
    assert (Hx : x < 256). { inversion Hd as [|? ? _ H]; subst. apply Forall_app in H as [_ H]. inversion H; assumption. }
    pose proof (trailing_zeros_spec x u Hx) as T.
    destruct (bs ++ [x]) as [|z zs] eqn:Ez; [destruct bs; discriminate|]. rewrite <- Ez.
    replace (last (bs ++ [x]) 0) with x by (rewrite last_last; reflexivity).
    split.
    + intros H. split; [reflexivity|]. right. exists u, bs, x. split; [reflexivity|]. apply T.
      destruct (trailing_zeros8 x <? u); [discriminate|reflexivity].
    + intros (_ & [H|(u' & bs' & x' & H & H')]).
      * rewrite Ez in H. discriminate.
      * injection H as <- H. apply app_inj_tail in H as [<- <-]. apply T in H'. rewrite H'. reflexivity.
Qed.

Lemma base_check_rule {A} (b : base A) a : bytes_ok (any_data a) ->
  (check_constraints (base_codec b) a = Ok tt
   <-> base_rule b (h_constructed (any_header a)) (h_length (any_header a)) (any_data a)).
Proof.
  intros Hd.
  destruct b; cbn [base_codec]; try (apply check_der_int_ok; exact Hd); try (apply bits_rule; exact Hd);
    try (cbn; tauto);
    try (cbn; unfold check_primitive, assert_primitive; destruct (h_constructed (any_header a)); split; congruence).
  - cbn. unfold boolean_check. destruct (any_data a) as [|x r].
    + split; [discriminate|]. intros (x & r & E & _). discriminate.
    + destruct (N.eqb_spec x 0), (N.eqb_spec x 255); cbn; (split; [intros H|intros (x' & r' & E & H); injection E as <- <-]);
        try discriminate; try reflexivity; try (exists x, r; auto); tauto.
  - cbn. apply definite_ok.
  - cbn. unfold oid_check, assert_primitive. destruct (h_constructed (any_header a)); cbn [bind].
    + split; [discriminate|intros [E _]; discriminate].
    + rewrite definite_ok. tauto.
  - cbn. rewrite gen_der_text_ok. split; intros [H H']; (split; [|exact H']).
    + destruct (any_data a) as [|x r] eqn:E; [discriminate H|]. rewrite <- E in *.
      destruct (exists_last (l := any_data a) ltac:(congruence)) as (t & y & Ey). rewrite Ey in *.
      rewrite last_last in H. subst y. eauto.
    + destruct H as (t & ->). apply last_last.
Qed.

Lemma check_item_ok {T} (L : legacy T) (P : bool -> N -> blength -> bytes -> Prop) i rem u :
  (forall a, bytes_ok (any_data a) -> (lg_check L a = Ok tt <->
     P (h_constructed (any_header a)) (h_tag (any_header a)) (h_length (any_header a)) (any_data a))) ->
  bytes_ok i ->
  ((let* (rem, x) := from_der any_codec i in let* _ := lg_check L x in Ok (rem, tt)) = Ok (rem, u) <->
   exists c k n cb, starts_with_object c k n cb i rem /\ P k n (Definite (blen cb)) cb).
Proof.
  intros HP Hi. rewrite from_der_any_eq. split.
  - intros E. apply bind_ok in E as ([r a] & E & E2). apply bind_ok in E2 as ([] & E2 & E3). injection E3 as -> _.
    pose proof (any_der_object _ _ _ Hi E) as (_ & Hd & _). apply HP in E2; [|exact Hd].
    apply parse_der_any_ok in E as (c & k & t & n & idb & lenb & bs & HR & -> & <- & ->); [|exact Hi].
    cbn in E2. exists c, k, (t mod 2 ^ 32), bs. split; [|exact E2]. exists t, idb, lenb. auto.
  - intros (c & k & n & cb & (t & idb & lenb & HR & <- & ->) & H).
    assert (E : parse_der_any (idb ++ lenb ++ cb ++ rem) = Ok (rem,
       mk_any (mk_header c k (t mod 2 ^ 32) (Definite (blen cb)) (Some idb) (Some (idb ++ lenb))) cb)).
    { apply parse_der_any_ok; [exact Hi|]. exists c, k, t, (blen cb), idb, lenb, cb. auto. }
    pose proof (any_der_object _ _ _ Hi E) as (_ & Hd & _). rewrite E. cbn [bind].
    rewrite (proj2 (HP _ Hd)) by exact H. cbn [bind]. destruct u. reflexivity.
Qed.

Lemma items_check_ok {T} (L : legacy T) (P : bool -> N -> blength -> bytes -> Prop) a :
  (forall a, bytes_ok (any_data a) -> (lg_check L a = Ok tt <->
     P (h_constructed (any_header a)) (h_tag (any_header a)) (h_length (any_header a)) (any_data a))) ->
  bytes_ok (any_data a) -> (items_check L a = Ok tt <-> objects_all P (any_data a)).
Proof.
  intros HP Hd. unfold items_check.
  set (p := fun i => let* (rem, x) := from_der any_codec i in let* _ := lg_check L x in Ok (rem, tt)).
  assert (Hp : forall i rem u, bytes_ok i -> (p i = Ok (rem, u) <->
     exists c k n cb, starts_with_object c k n cb i rem /\ P k n (Definite (blen cb)) cb))
    by (intros; apply check_item_ok; assumption).
  assert (Sp : forall c k n cb i rem, starts_with_object c k n cb i rem ->
     exists e, e <> [] /\ i = e ++ rem /\ starts_with_object c k n cb e []).
  { intros c k n cb i rem (t & idb & lenb & HR & Ht & ->). exists (idb ++ lenb ++ cb). split; [|split].
    - apply readable_nonempty in HR. intros E. rewrite app_assoc in E. apply app_eq_nil in E as [E _].
      rewrite E in HR. cbn in HR. lia.
    - rewrite <- !app_assoc. reflexivity.
    - exists t, idb, lenb. rewrite app_nil_r. auto. }
  assert (Hc : consuming p).
  { intros i rem u Hi E. apply Hp in E as (c & k & n & cb & E & _); [|exact Hi].
    destruct (Sp _ _ _ _ _ _ E) as (e & Hne & -> & _). apply bytes_ok_app in Hi as [_ Hi]. split; [|exact Hi].
    rewrite app_length. destruct e; [congruence|cbn; lia]. }
  assert (G : forall d, bytes_ok d -> ((exists us, reads_all p d us) <-> objects_all P d)).
  { intros d Hb. split.
    - intros (us & R). induction R as [|i rem v vs Hne E R IH]; [exists []; split; [reflexivity|constructor]|].
      apply Hp in E as (c & k & n & cb & E & H); [|exact Hb]. destruct (Sp _ _ _ _ _ _ E) as (e & _ & -> & Ee).
      apply bytes_ok_app in Hb as [_ Hb]. destruct (IH Hb) as (es & -> & F). exists (e :: es). split; [reflexivity|].
      constructor; [|exact F]. exists c, k, n, cb. auto.
    - intros (es & -> & F). induction F as [|e es (c & k & n & cb & He & H) F IH]; [exists []; constructor|].
      cbn [concat] in *. pose proof Hb as Hb'. apply bytes_ok_app in Hb' as [_ Hr]. destruct (IH Hr) as (us & R).
      assert (S' : starts_with_object c k n cb (e ++ concat es) (concat es)).
      { destruct He as (t & idb & lenb & HR & Ht & ->). exists t, idb, lenb. rewrite app_nil_r, <- !app_assoc. auto. }
      exists (tt :: us). apply (ra_cons p _ (concat es)); [| |exact R].
      + destruct (Sp _ _ _ _ _ _ He) as (e' & Hne & E & _). rewrite app_nil_r in E. subst e'.
        intros E. apply app_eq_nil in E as [E _]. congruence.
      + apply Hp; [exact Hb|]. exists c, k, n, cb. auto. }
  rewrite <- (G _ Hd). split.
  - intros E. apply bind_ok in E as (us & E & _). exists us. apply seq_items_reads; assumption.
  - intros (us & R). apply (seq_items_reads p _ _ Hc Hd) in R. rewrite R. reflexivity.
Qed.

Lemma legacy_number {A} (t : ty A) : has_legacy t -> lg_tag (legacy_of t) = type_number t.
Proof. destruct t; cbn; tauto. Qed.

(** The tagged list checks. *)
Lemma list_check_ok {T} (L : legacy T) (P : bool -> N -> blength -> bytes -> Prop) tag a :
  (forall a, bytes_ok (any_data a) -> (lg_check L a = Ok tt <->
     P (h_constructed (any_header a)) (h_tag (any_header a)) (h_length (any_header a)) (any_data a))) ->
  bytes_ok (any_data a) ->
  ((let* _ := assert_tag (any_header a) tag in let* _ := assert_constructed (any_header a) in items_check L a) = Ok tt <->
   h_tag (any_header a) = tag /\ h_constructed (any_header a) = true /\ objects_all P (any_data a)).
Proof.
  intros HP Hd. rewrite <- assert_tag_ok, <- assert_constructed_ok, <- (items_check_ok L P a HP Hd).
  destruct (assert_tag (any_header a) tag) as [[]| | |]; cbn [bind]; try (split; [discriminate|intros [E _]; discriminate]).
  destruct (assert_constructed (any_header a)) as [[]| | |]; cbn [bind]; try (split; [discriminate|intros (_ & E & _); discriminate]).
  tauto.
Qed.

(** ** The theorems *)

Theorem C92_check_partial {A} (t : ty A) a :
  has_legacy t -> bytes_ok (any_data a) ->
  (lg_check (legacy_of t) a = Ok tt <->
   passes t (h_constructed (any_header a)) (h_tag (any_header a)) (h_length (any_header a)) (any_data a)).
Proof.
  revert a. induction t as [A b|A t IH|A n t IH|A t IH|A cmp t IH|A c n t IH|A c n t IH];
    intros a HL Hd; cbn [has_legacy] in HL; cbn [passes].
  - apply base_check_rule, Hd.
  - apply list_check_ok; [|exact Hd]. intros; apply IH; assumption.
  - contradiction.
  - apply list_check_ok; [|exact Hd]. intros; apply IH; assumption.
  - apply list_check_ok; [|exact Hd]. intros; apply IH; assumption.
  - cbn [legacy_of lg_check explicit_legacy]. unfold explicit_check. rewrite <- definite_ok.
    destruct (length_assert_definite _) as [[]| | |]; cbn [bind]; try (split; [discriminate|intros [E _]; discriminate]).
    split.
    + intros E. split; [reflexivity|]. apply bind_ok in E as ([r x] & E1 & E2).
      assert (E : parse_ber_any (any_data a) = Ok (r, x)) by (destruct (parse_ber_any _); cbn [close] in E1; congruence).
      pose proof (any_ber_object _ _ _ Hd E) as (_ & Hx & _). apply IH in E2; [|exact HL|exact Hx].
      apply parse_ber_any_ok in E as (c' & k' & t' & l' & idb & lenb & bs & HR & E & Hc & ->); [|exact Hd].
      exists c', k', t', l', idb, lenb, bs, r. auto.
    + intros (_ & c' & k' & n' & l' & idb & lenb & bs & rest & HR & Hc & E & H).
      assert (E1 : parse_ber_any (any_data a) = Ok (rest,
        mk_any (mk_header c' k' (n' mod 2 ^ 32) l' (Some idb) (Some (idb ++ lenb))) (content_of l' bs))).
      { apply parse_ber_any_ok; [exact Hd|]. exists c', k', n', l', idb, lenb, bs. auto. }
      pose proof (any_ber_object _ _ _ Hd E1) as (_ & Hx & _). rewrite E1. cbn [close bind].
      apply IH; [exact HL|exact Hx|exact H].
  - cbn [legacy_of lg_check implicit_legacy]. unfold implicit_check. rewrite <- definite_ok.
    destruct (length_assert_definite _) as [[]| | |]; cbn [bind]; try (split; [discriminate|intros [E _]; discriminate]).
    rewrite IH by assumption. cbn. rewrite legacy_number by exact HL. tauto.
Qed.
Print Assumptions C92_check_partial.

(** Every encoding of a value passes. *)
Theorem C92_encodings_pass {A} (t : ty A) v cb c k n rt rh :
  wf t -> has_legacy t -> sx_ident (syntax_of t) v = (c, k, n) -> sx_content (syntax_of t) v cb -> blen cb < 2 ^ 24 ->
  lg_check (legacy_of t) (mk_any (mk_header c k n (Definite (blen cb)) rt rh) cb) = Ok tt.
Proof.
  intros W HL Hi Hc Hn. destruct (types_sound t W) as (_ & _ & _ & L & _). destruct (L HL) as (_ & L2 & _).
  destruct (L2 _ _ _ _ _ Hi Hc Hn) as [_ H]. apply (H rt rh).
Qed.
Print Assumptions C92_encodings_pass.

(** [HashSet] (src/asn1_types/set/hashset.rs:76-89). *)
Theorem C92_hashset {A} (same : A -> A -> bool) (t : ty A) a :
  has_legacy t -> bytes_ok (any_data a) ->
  (lg_check (hashset_legacy same (legacy_of t)) a = Ok tt <->
   h_tag (any_header a) = 17 /\ h_constructed (any_header a) = true /\ objects_all (passes t) (any_data a))
  /\ (implicit_check (hashset_legacy same (legacy_of t)) a = Ok tt <->
      h_length (any_header a) <> Indefinite /\ h_constructed (any_header a) = true /\ objects_all (passes t) (any_data a)).
Proof.
  intros HL Hd.
  assert (H : forall a, bytes_ok (any_data a) -> (lg_check (hashset_legacy same (legacy_of t)) a = Ok tt <->
    h_tag (any_header a) = 17 /\ h_constructed (any_header a) = true /\ objects_all (passes t) (any_data a))).
  { intros a' Ha. apply list_check_ok; [|exact Ha]. intros; apply C92_check_partial; assumption. }
  split; [apply H, Hd|]. unfold implicit_check. destruct (h_length (any_header a)) as [l|] eqn:E; cbn [length_assert_definite bind].
  - eapply iff_trans; [exact (H (mk_any (with_tag (any_header a) 17) (any_data a)) Hd)|]. cbn. split; [intros (_ & X); split; [discriminate|exact X]|intros (_ & X); split; [reflexivity|exact X]].
  - split; [discriminate|intros (X & _); congruence].
Qed.
Print Assumptions C92_hashset.

(** [TaggedParser] and [Option]: unlike [TaggedValue], the first wants an inner object of definite length. *)
Theorem C92_tagged_parser {A} (t : ty A) a :
  has_legacy t -> bytes_ok (any_data a) ->
  let h := any_header a in
  (tp_explicit_check (legacy_of t) a = Ok tt <->
   h_length h <> Indefinite
   /\ exists c k n cb rest, starts_with_object c k n cb (any_data a) rest /\ passes t k n (Definite (blen cb)) cb)
  /\ (tp_implicit_check (legacy_of t) a = Ok tt <->
      h_length h <> Indefinite /\ passes t (h_constructed h) (type_number t) (h_length h) (any_data a))
  /\ (option_check (legacy_of t) a = Ok tt <-> passes t (h_constructed h) (h_tag h) (h_length h) (any_data a)).
Proof.
  intros HL Hd. cbn zeta.
  assert (HP : forall a, bytes_ok (any_data a) -> (lg_check (legacy_of t) a = Ok tt <->
     passes t (h_constructed (any_header a)) (h_tag (any_header a)) (h_length (any_header a)) (any_data a)))
    by (intros; apply C92_check_partial; assumption).
  split; [|split].
  - unfold tp_explicit_check. rewrite <- definite_ok.
    destruct (length_assert_definite _) as [[]| | |]; cbn [bind]; try (split; [discriminate|intros [E _]; discriminate]).
    split.
    + intros E. split; [reflexivity|]. apply bind_ok in E as ([r x] & E1 & E2).
      assert (E : from_der any_codec (any_data a) = Ok (r, x)) by (destruct (from_der any_codec _); cbn [close] in E1; congruence).
      pose proof (check_item_ok (legacy_of t) (passes t) (any_data a) r tt HP Hd) as I.
      rewrite E in I. cbn [bind] in I. rewrite E2 in I. destruct (proj1 I eq_refl) as (c & k & n & cb & S & H).
      exists c, k, n, cb, r. auto.
    + intros (_ & c & k & n & cb & rest & S & H).
      assert (E : (let* (rem, x) := from_der any_codec (any_data a) in let* _ := lg_check (legacy_of t) x in Ok (rem, tt))
                  = Ok (rest, tt)) by (apply (check_item_ok (legacy_of t) (passes t)); [exact HP|exact Hd|eauto 8]).
      apply bind_ok in E as ([r x] & E1 & E). apply bind_ok in E as ([] & E2 & _). rewrite E1. exact E2.
  - unfold tp_implicit_check. rewrite <- definite_ok.
    destruct (length_assert_definite _) as [[]| | |]; cbn [bind]; try (split; [discriminate|intros [E _]; discriminate]).
    rewrite HP by exact Hd. cbn. rewrite legacy_number by exact HL. tauto.
  - apply HP, Hd.
Qed.
Print Assumptions C92_tagged_parser.

(** Derived structs: one object for every field, then anything. *)
Theorem C92_struct {T} tag (ber der : fields T) (Ps : list (bool -> N -> blength -> bytes -> Prop)) cs a :
  Forall2 (fun (c : any -> res unit) P => forall a, bytes_ok (any_data a) -> (c a = Ok tt <->
     P (h_constructed (any_header a)) (h_tag (any_header a)) (h_length (any_header a)) (any_data a))) cs Ps ->
  bytes_ok (any_data a) ->
  (lg_check (struct_legacy tag ber der cs) a = Ok tt <->
   h_tag (any_header a) = tag
   /\ exists es rest, any_data a = concat es ++ rest
        /\ Forall2 (fun e P => exists c k n cb, starts_with_object c k n cb e [] /\ P k n (Definite (blen cb)) cb) es Ps).
Proof.
  intros F Hd. cbn [lg_check struct_legacy]. unfold struct_check. rewrite <- assert_tag_ok.
  destruct (assert_tag (any_header a) tag) as [[]| | |]; cbn [bind]; try (split; [discriminate|intros [E _]; discriminate]).
  assert (G : forall d, bytes_ok d -> (check_fields cs d = Ok tt <-> exists es rest, d = concat es ++ rest
        /\ Forall2 (fun e P => exists c k n cb, starts_with_object c k n cb e [] /\ P k n (Definite (blen cb)) cb) es Ps)).
  { clear Hd. induction F as [|c P cs Ps HP F IH]; intros d Hd.
    - split; [|reflexivity]. intros _. exists [], d. split; [reflexivity|constructor].
    - cbn [check_fields].
      pose proof (fun rem u => check_item_ok (mk_legacy 0 (fun _ => Err EUnsupported) c (fun _ => Err EUnsupported)
         (fun _ => Err EUnsupported) : legacy unit) P d rem u HP Hd) as I. cbn [lg_check] in I. split.
      + intros E. apply bind_ok in E as ([rem x] & E1 & E). apply bind_ok in E as ([] & E2 & E3).
        assert (E : from_der any_codec d = Ok (rem, x)) by (destruct (from_der any_codec d); cbn [close] in E1; congruence).
        specialize (I rem tt). rewrite E in I. cbn [bind] in I. rewrite E2 in I. cbn [bind] in I.
        destruct (proj1 I eq_refl) as (c' & k & n & cb & (t & idb & lenb & HR & Ht & ->) & H).
        assert (Hr : bytes_ok rem) by (repeat (apply bytes_ok_app in Hd as [_ Hd]); exact Hd).
        apply IH in E3 as (es & rest & -> & F'); [|exact Hr].
        exists ((idb ++ lenb ++ cb) :: es), rest. split; [cbn [concat]; rewrite <- !app_assoc; reflexivity|].
        constructor; [|exact F']. exists c', k, n, cb. split; [|exact H]. exists t, idb, lenb. rewrite app_nil_r. auto.
      + intros (es & rest & -> & F'). inversion F' as [|e P' es' Ps' (c' & k & n & cb & He & H) F'']; subst. cbn [concat] in *.
        specialize (I (concat es' ++ rest) tt).
        assert (E : (let* (rem, x) := from_der any_codec ((e ++ concat es') ++ rest) in let* _ := c x in Ok (rem, tt))
                    = Ok (concat es' ++ rest, tt)).
        { apply I. exists c', k, n, cb. split; [|exact H]. destruct He as (t & idb & lenb & HR & Ht & ->).
          exists t, idb, lenb. rewrite app_nil_r, <- !app_assoc. auto. }
        apply bind_ok in E as ([rem x] & E1 & E). apply bind_ok in E as ([] & E2 & E3). injection E3 as ->.
        rewrite E1. cbn [close bind]. rewrite E2. cbn [bind]. apply IH.
        * rewrite <- app_assoc in Hd. apply bytes_ok_app in Hd as [_ Hd]. exact Hd.
        * exists es', rest. auto. }
  rewrite (G _ Hd). tauto.
Qed.
Print Assumptions C92_struct.

(** Derived aliases: the tag, then the checks of the type. *)
Theorem C92_alias {A} (t : ty A) a :
  has_legacy t -> bytes_ok (any_data a) ->
  (lg_check (alias_legacy (legacy_of t)) a = Ok tt <->
   h_tag (any_header a) = type_number t
   /\ passes t (h_constructed (any_header a)) (type_number t) (h_length (any_header a)) (any_data a)).
Proof.
  intros HL Hd. cbn [lg_check alias_legacy]. unfold alias_check. rewrite legacy_number by exact HL. split.
  - intros E. apply bind_ok in E as ([] & E & E2). apply assert_tag_ok in E. split; [exact E|]. rewrite <- E.
    apply C92_check_partial; assumption.
  - intros [E H]. rewrite (proj2 (assert_tag_ok _ _) E). cbn [bind]. rewrite <- E in H. apply C92_check_partial; assumption.
Qed.
Print Assumptions C92_alias.

(** ** Cases *)

Definition obj (k : bool) (n : N) (d : bytes) : any := mk_any (mk_header Universal k n (Definite (blen d)) None None) d.

(** SEQUENCE OF INTEGER { 1, 2 }; a longer form of 1 in it does not pass, nor does a primitive one, nor another tag. *)
Example C92_case :
  let t := TVec (TBase (BInt 4)) in
  lg_check (legacy_of t) (obj true 16 [2; 1; 1; 2; 1; 2]) = Ok tt
  /\ lg_check (legacy_of t) (obj true 16 [2; 2; 0; 1]) <> Ok tt
  /\ lg_check (legacy_of t) (obj false 16 [2; 1; 1]) <> Ok tt
  /\ lg_check (legacy_of (TSetOf (TBase (BInt 4)))) (obj true 16 [2; 1; 1]) <> Ok tt
  /\ lg_check (legacy_of (TExplicit ContextSpecific 0 t)) (obj true 0 [48; 3; 2; 1; 5]) = Ok tt
  /\ lg_check (legacy_of (TBase BBits)) (obj false 3 [4; 240]) = Ok tt
  /\ lg_check (legacy_of (TBase BBits)) (obj false 3 [4; 248]) <> Ok tt.
Proof. vm_compute. repeat split; congruence. Qed.

(** The hypotheses of [C92_encodings_pass] hold for the octets 1, 2. *)
Example C92_encodings_case :
  let t := TBase BOctets in
  wf t /\ has_legacy t /\ sx_ident (syntax_of t) [1; 2] = (Universal, false, 4) /\ sx_content (syntax_of t) [1; 2] [1; 2]
  /\ lg_check (legacy_of t) (obj false 4 [1; 2]) = Ok tt.
Proof. cbn. repeat split; repeat constructor; lia. Qed.

(** A struct of a BOOLEAN and an INTEGER, with octets after the last field. *)
Example C92_struct_case :
  let cs := [lg_check (legacy_of (TBase BBool)); lg_check (legacy_of (TBase (BInt 4)))] in
  let L := struct_legacy (T := unit) 16 (fun i => Ok (i, tt)) (fun i => Ok (i, tt)) cs in
  lg_check L (obj true 16 [1; 1; 255; 2; 1; 7; 9; 9]) = Ok tt /\ lg_check L (obj true 16 [1; 1; 3; 2; 1; 7]) <> Ok tt
  /\ lg_check L (obj true 16 [1; 1; 255]) <> Ok tt.
Proof. vm_compute. repeat split; congruence. Qed.

Example C92_hashset_case :
  let L := hashset_legacy (fun _ _ => false) (legacy_of (TBase BBool)) in
  lg_check L (obj true 17 [1; 1; 255]) = Ok tt /\ lg_check L (obj false 17 [1; 1; 255]) <> Ok tt
  /\ lg_check L (obj true 17 [1; 1; 3]) <> Ok tt.
Proof. vm_compute. repeat split; congruence. Qed.

(** Only [TaggedValue] lets an inner NULL of indefinite length pass. *)
Example C92_tagged_parser_case :
  let t := TBase BNull in
  tp_explicit_check (legacy_of t) (obj true 0 [5; 0]) = Ok tt
  /\ tp_explicit_check (legacy_of t) (obj true 0 [37; 128; 0; 0]) <> Ok tt
  /\ lg_check (legacy_of (TExplicit ContextSpecific 0 t)) (obj true 0 [37; 128; 0; 0]) = Ok tt
  /\ tp_implicit_check (legacy_of (TBase (BInt 4))) (obj false 0 [7]) = Ok tt
  /\ tp_implicit_check (legacy_of (TBase (BInt 4))) (obj false 0 [0; 7]) <> Ok tt.
Proof. vm_compute. repeat split; congruence. Qed.

Example C92_alias_case :
  lg_check (alias_legacy (legacy_of (TBase (BInt 4)))) (obj false 2 [7]) = Ok tt
  /\ lg_check (alias_legacy (legacy_of (TBase (BInt 4)))) (obj false 10 [7]) <> Ok tt.
Proof. vm_compute. split; congruence. Qed.

(** ** Objects that are not DER and pass, and one on which the check panics *)

(** ENUMERATED in a longer form; NULL with contents; an empty UTCTime; a primitive SEQUENCE; eight unused bits;
    two octets after an explicitly tagged BOOLEAN, in a primitive tag; a BOOLEAN of two octets. *)
Theorem C92_refuted :
  exists enum null utc sq bits tagged two empty,
    lg_check (legacy_of (TBase BEnum)) enum = Ok tt /\ ~ shortest (any_data enum)
    /\ lg_check (legacy_of (TBase BNull)) null = Ok tt /\ any_data null <> []
    /\ lg_check (legacy_of (TBase BUtcTime)) utc = Ok tt /\ any_data utc = []
    /\ lg_check (legacy_of (TBase BSequence)) sq = Ok tt /\ h_constructed (any_header sq) = false
    /\ lg_check (legacy_of (TBase BBits)) bits = Ok tt /\ hd 0 (any_data bits) = 8
    /\ lg_check (legacy_of (TExplicit ContextSpecific 0 (TBase BBool))) tagged = Ok tt
    /\ h_constructed (any_header tagged) = false /\ any_data tagged = [1; 1; 255; 9; 9]
    /\ lg_check (legacy_of (TBase BBool)) two = Ok tt /\ any_data two = [255; 3]
    /\ lg_check (legacy_of (TBase BBool)) empty = Panic.
Proof.
  exists (obj false 10 [0; 1]), (obj false 5 [1]), (obj false 23 []), (obj false 16 []), (obj false 3 [8; 0]),
    (obj false 0 [1; 1; 255; 9; 9]), (obj false 1 [255; 3]), (obj false 1 []).
  repeat split; try (vm_compute; congruence).
  intros [_ H]. specialize (H [1]). cbn in H. assert (X : (2 <= 1)%nat); [|lia]. apply H; try discriminate; try reflexivity.
  repeat constructor.
Qed.
Print Assumptions C92_refuted.
