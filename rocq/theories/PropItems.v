(** What the containers accept. *)
From Verif Require Import Base MHeader MEncode SHeader PArith PHeader PEncode MBer SBer PBer PIter PCodec.
From Verif Require Import MInt SInt PInt MSeg SSeg MOid MText SText PropText.
From Verif Require Import MCont SCont PCont SBase PBase PTypes PropCont PropTag.

(** ** C51: SEQUENCE OF and SET OF accept exactly the objects made of elements *)

Lemma convert_item_ok {T} accept (content : header -> bytes -> res (bytes * T)) a v :
  convert_item accept content a = Ok v <->
  accept (h_tag (any_header a)) = true /\ exists r, content (any_header a) (any_data a) = Ok (r, v).
Proof.
  unfold convert_item. destruct (accept (h_tag (any_header a))); [|split; [discriminate|intros [E _]; discriminate]].
  rewrite bind_ok. split.
  - intros ([r x] & E & F). injection F as ->. split; [reflexivity|]. exists r. exact E.
  - intros [_ (r & E)]. exists (r, v). auto.
Qed.

Lemma collect_reads {T} p (f : any -> res T) (q : bytes -> res (bytes * T)) i r vs :
  object_parser p ->
  (forall i rem v, bytes_ok i -> (q i = Ok (rem, v) <-> exists a, p i = Ok (rem, a) /\ f a = Ok v)) ->
  bytes_ok i ->
  (collect_loop p f (S (length i)) i = Ok (r, vs) <-> r = [] /\ reads_all q i vs).
Proof.
  intros Hop Hq. pose proof Hop as [_ Hp].
  assert (G : forall m i r vs, (length i < m)%nat -> bytes_ok i ->
    (collect_loop p f (S (length i)) i = Ok (r, vs) <-> r = [] /\ reads_all q i vs)).
  { clear i r vs. induction m as [|m IH]; intros i r vs Hm Hi; [lia|].
    rewrite collect_unfold by assumption. destruct (N.eqb_spec (blen i) 0) as [H0|H0].
    - apply blen_zero in H0. subst i. split.
      + intros E. injection E as <- <-. split; [reflexivity|constructor].
      + intros [-> R]. inversion R; subst; [reflexivity|congruence].
    - assert (Hne : i <> []) by (intros ->; apply H0; reflexivity). split.
      + intros E. apply bind_ok in E as ([rem a] & E1 & E). apply bind_ok in E as (x & E2 & E).
        apply bind_ok in E as ([r' xs] & E3 & E). injection E as -> <-.
        assert (E1' : p i = Ok (rem, a)) by (destruct (p i); cbn [close] in E1; congruence).
        destruct (Hp _ _ _ Hi E1') as (pre & -> & Hl & _). apply bytes_ok_app in Hi as Hi'. destruct Hi' as [_ Hr].
        rewrite app_length in Hm. apply IH in E3 as [-> R]; [|lia|exact Hr]. split; [reflexivity|].
        apply (ra_cons q _ rem); [exact Hne| |exact R]. apply Hq; [exact Hi|]. eauto.
      + intros [-> R]. inversion R as [|i' rem v vs' Hne' E R']; subst; [congruence|].
        apply Hq in E as (a & E1 & E2); [|exact Hi]. rewrite E1. cbn [close bind]. rewrite E2. cbn [bind].
        destruct (Hp _ _ _ Hi E1) as (pre & -> & Hl & _). apply bytes_ok_app in Hi as [_ Hr].
        rewrite app_length in Hm. rewrite (proj2 (IH rem [] vs' ltac:(lia) Hr) (conj eq_refl R')). reflexivity. }
  intros Hi. apply (G (S (length i))); [lia|exact Hi].
Qed.

Lemma collect_ber_ok {T} (P : parser T) i r vs :
  regular P -> bytes_ok i -> (collect_ber P i = Ok (r, vs) <-> r = [] /\ reads_all (ps_parse_ber P) i vs).
Proof.
  intros [R _] Hi. apply collect_reads; [apply object_parser_ber| |exact Hi].
  intros j rem v Hj. rewrite R, any_parse_ber_eq by exact Hj.
  rewrite (default_parse_ber_ok (ps_accept P) (ps_ber_content P) (ps_der_content P) j rem v). split.
  - intros (a & r' & E & A & C). exists a. split; [exact E|]. apply convert_item_ok. eauto.
  - intros (a & E & C). apply convert_item_ok in C as [A (r' & C)]. eauto.
Qed.

Lemma collect_der_ok {T} (P : parser T) i r vs :
  regular P -> bytes_ok i -> (collect_der P i = Ok (r, vs) <-> r = [] /\ reads_all (ps_parse_der P) i vs).
Proof.
  intros [_ R] Hi. apply collect_reads; [apply object_parser_der| |exact Hi].
  intros j rem v Hj. rewrite R, any_parse_der_eq by exact Hj.
  rewrite (default_parse_der_ok (ps_accept P) (ps_ber_content P) (ps_der_content P) j rem v Hj). split.
  - intros (a & r' & E & A & C). exists a. split; [exact E|]. apply convert_item_ok. eauto.
  - intros (a & E & C). apply convert_item_ok in C as [A (r' & C)]. eauto.
Qed.

(** [p] reads at least one octet. *)
Definition consuming {T} (p : bytes -> res (bytes * T)) : Prop :=
  forall i rem v, bytes_ok i -> p i = Ok (rem, v) -> (length rem < length i)%nat /\ bytes_ok rem.

Lemma seq_items_reads {T} (p : bytes -> res (bytes * T)) i vs :
  consuming p -> bytes_ok i -> (seq_items p i = Ok vs <-> reads_all p i vs).
Proof.
  intros Hp. unfold seq_items.
  assert (G : forall m i vs, (length i < m)%nat -> bytes_ok i -> (seq_collect p m i = Ok vs <-> reads_all p i vs)).
  { clear i vs. induction m as [|m IH]; intros i vs Hm Hi; [lia|]. cbn [seq_collect].
    destruct (N.eqb_spec (blen i) 0) as [H0|H0].
    - apply blen_zero in H0. subst i. split.
      + intros E. injection E as <-. constructor.
      + intros R. inversion R; subst; [reflexivity|congruence].
    - assert (Hne : i <> []) by (intros ->; apply H0; reflexivity). split.
      + intros E. apply bind_ok in E as ([rem x] & E1 & E). apply bind_ok in E as (xs & E2 & E). injection E as <-.
        assert (E1' : p i = Ok (rem, x)) by (destruct (p i); cbn [close] in E1; congruence).
        destruct (Hp _ _ _ Hi E1') as [Hl Hr]. apply (ra_cons p _ rem); [exact Hne|exact E1'|]. apply IH; [lia|exact Hr|exact E2].
      + intros R. inversion R as [|i' rem v vs' Hne' E R']; subst; [congruence|].
        destruct (Hp _ _ _ Hi E) as [Hl Hr]. rewrite E. cbn [close bind].
        rewrite (proj2 (IH rem vs' ltac:(lia) Hr) R'). reflexivity. }
  intros Hi. apply G; [lia|exact Hi].
Qed.

Lemma vec_ber_ok {T} (P : parser T) h d r vs :
  regular P -> bytes_ok d ->
  (vec_ber_content P h d = Ok (r, vs) <-> h_constructed h = true /\ r = [] /\ reads_all (ps_parse_ber P) d vs).
Proof.
  intros R Hd. unfold vec_ber_content. rewrite <- assert_constructed_ok.
  destruct (assert_constructed h) as [[]| | |]; cbn [bind]; try (split; [discriminate|intros [E _]; discriminate]).
  destruct (N.eqb_spec (blen d) 0) as [H0|H0].
  - apply blen_zero in H0. subst d. split.
    + intros E. injection E as <- <-. split; [reflexivity|]. split; [reflexivity|constructor].
    + intros (_ & -> & R'). inversion R'; subst; [reflexivity|congruence].
  - rewrite collect_ber_ok by assumption. tauto.
Qed.
Lemma vec_der_ok {T} (P : parser T) h d r vs :
  regular P -> bytes_ok d ->
  (vec_der_content P h d = Ok (r, vs) <-> h_constructed h = true /\ r = [] /\ reads_all (ps_parse_der P) d vs).
Proof.
  intros R Hd. unfold vec_der_content. rewrite <- assert_constructed_ok.
  destruct (assert_constructed h) as [[]| | |]; cbn [bind]; try (split; [discriminate|intros [E _]; discriminate]).
  destruct (N.eqb_spec (blen d) 0) as [H0|H0].
  - apply blen_zero in H0. subst d. split.
    + intros E. injection E as <- <-. split; [reflexivity|]. split; [reflexivity|constructor].
    + intros (_ & -> & R'). inversion R'; subst; [reflexivity|congruence].
  - rewrite collect_der_ok by assumption. tauto.
Qed.

(** A parser with default methods, in terms of objects. *)
Lemma object_parse_ber {T} tag (ber der : header -> bytes -> res (bytes * T)) (Q : bytes -> T -> Prop) i rem v :
  bytes_ok i ->
  (forall h d, bytes_ok d -> ((exists r, ber h d = Ok (r, v)) <-> h_constructed h = true /\ Q d v)) ->
  (ps_parse_ber (default_parser (is_tag tag) ber der) i = Ok (rem, v) <->
   exists c content, starts_with_ber_object c true tag content i rem /\ Q content v).
Proof.
  intros Hi HQ. rewrite default_parse_ber_ok. split.
  - intros (a & r & E & A & C). apply is_tag_iff in A. destruct (any_ber_object _ _ _ Hi E) as (O & Hd & _).
    destruct (proj1 (HQ (any_header a) (any_data a) Hd) (ex_intro _ r C)) as [K Hq].
    rewrite A, K in O. eauto.
  - intros (c & d & O & Hq). destruct (ber_object_any _ _ _ _ _ _ Hi O) as (h & E & Cl & K & Ta).
    destruct (any_ber_object _ _ _ Hi E) as (_ & Hd & _). cbn [any_data] in Hd.
    destruct (proj2 (HQ h d Hd) (conj K Hq)) as (r & C). exists (mk_any h d), r. split; [exact E|].
    split; [apply is_tag_iff; exact Ta|exact C].
Qed.
Lemma object_parse_der {T} tag (ber der : header -> bytes -> res (bytes * T)) (Q : bytes -> T -> Prop) i rem v :
  bytes_ok i ->
  (forall h d, bytes_ok d -> ((exists r, der h d = Ok (r, v)) <-> h_constructed h = true /\ Q d v)) ->
  (ps_parse_der (default_parser (is_tag tag) ber der) i = Ok (rem, v) <->
   exists c content, starts_with_object c true tag content i rem /\ Q content v).
Proof.
  intros Hi HQ. rewrite default_parse_der_ok by exact Hi. split.
  - intros (a & r & E & A & C). apply is_tag_iff in A. destruct (any_der_object _ _ _ Hi E) as (O & Hd & _).
    destruct (proj1 (HQ (any_header a) (any_data a) Hd) (ex_intro _ r C)) as [K Hq].
    rewrite A, K in O. eauto.
  - intros (c & d & O & Hq). destruct (der_object_any _ _ _ _ _ _ Hi O) as (h & E & Cl & K & Ta).
    destruct (any_der_object _ _ _ Hi E) as (_ & Hd & _). cbn [any_data] in Hd.
    destruct (proj2 (HQ h d Hd) (conj K Hq)) as (r & C). exists (mk_any h d), r. split; [exact E|].
    split; [apply is_tag_iff; exact Ta|exact C].
Qed.

(** [Vec<T>], [SequenceOf<T>], [SetOf<T>], arrays and [BTreeSet<T>] read with [parse_ber] and [parse_der]: a
    constructed object with the right tag number, whose content is read completely by the element type. *)
Theorem C51_parse_accept {T} (P : parser T) n cmp (i rem : bytes) (vs : list T) :
  regular P -> bytes_ok i ->
  let accepts_ber tag (Q : list T -> Prop) :=
    exists c content vs0, starts_with_ber_object c true tag content i rem /\ reads_all (ps_parse_ber P) content vs0 /\ Q vs0 in
  let accepts_der tag (Q : list T -> Prop) :=
    exists c content vs0, starts_with_object c true tag content i rem /\ reads_all (ps_parse_der P) content vs0 /\ Q vs0 in
  (ps_parse_ber (vec_parser P) i = Ok (rem, vs) <-> accepts_ber 16 (eq vs))
  /\ (ps_parse_der (vec_parser P) i = Ok (rem, vs) <-> accepts_der 16 (eq vs))
  /\ (ps_parse_ber (array_parser n P) i = Ok (rem, vs) <-> accepts_ber 16 (fun w => vs = w /\ length w = n))
  /\ (ps_parse_der (array_parser n P) i = Ok (rem, vs) <-> accepts_der 16 (fun w => vs = w /\ length w = n))
  /\ (ps_parse_ber (setof_parser P) i = Ok (rem, vs) <-> accepts_ber 17 (eq vs))
  /\ (ps_parse_der (setof_parser P) i = Ok (rem, vs) <-> accepts_der 17 (eq vs))
  /\ (ps_parse_ber (btreeset_parser cmp P) i = Ok (rem, vs) <-> accepts_ber 17 (fun w => vs = set_of_list cmp w))
  /\ (ps_parse_der (btreeset_parser cmp P) i = Ok (rem, vs) <-> accepts_der 17 (fun w => vs = set_of_list cmp w)).
Proof.
  intros R Hi AB AD.
  assert (SB : forall h d r w, bytes_ok d -> (setof_ber_content P h d = Ok (r, w) <->
    h_constructed h = true /\ r = [] /\ reads_all (ps_parse_ber P) d w)).
  { intros h d r w Hd. unfold setof_ber_content. rewrite <- assert_constructed_ok.
    destruct (assert_constructed h) as [[]| | |]; cbn [bind]; try (split; [discriminate|intros [E _]; discriminate]).
    rewrite collect_ber_ok by assumption. tauto. }
  assert (SD : forall h d r w, bytes_ok d -> (setof_der_content P h d = Ok (r, w) <->
    h_constructed h = true /\ r = [] /\ reads_all (ps_parse_der P) d w)).
  { intros h d r w Hd. unfold setof_der_content. rewrite <- assert_constructed_ok.
    destruct (assert_constructed h) as [[]| | |]; cbn [bind]; try (split; [discriminate|intros [E _]; discriminate]).
    rewrite collect_der_ok by assumption. tauto. }
  assert (FB : forall tag ber der (Q : list T -> Prop),
    (forall h d, bytes_ok d -> ((exists r, ber h d = Ok (r, vs)) <->
        h_constructed h = true /\ exists w, reads_all (ps_parse_ber P) d w /\ Q w)) ->
    (ps_parse_ber (default_parser (is_tag tag) ber der) i = Ok (rem, vs) <-> AB tag Q)).
  { intros tag ber der Q H.
    rewrite (object_parse_ber tag ber der (fun d _ => exists w, reads_all (ps_parse_ber P) d w /\ Q w) i rem vs Hi H).
    unfold AB. split; [intros (c & d & O & w & Rw & Hq)|intros (c & d & w & O & Rw & Hq)]; eauto 7. }
  assert (FD : forall tag ber der (Q : list T -> Prop),
    (forall h d, bytes_ok d -> ((exists r, der h d = Ok (r, vs)) <->
        h_constructed h = true /\ exists w, reads_all (ps_parse_der P) d w /\ Q w)) ->
    (ps_parse_der (default_parser (is_tag tag) ber der) i = Ok (rem, vs) <-> AD tag Q)).
  { intros tag ber der Q H.
    rewrite (object_parse_der tag ber der (fun d _ => exists w, reads_all (ps_parse_der P) d w /\ Q w) i rem vs Hi H).
    unfold AD. split; [intros (c & d & O & w & Rw & Hq)|intros (c & d & w & O & Rw & Hq)]; eauto 7. }
  split; [|split; [|split; [|split; [|split; [|split; [|split]]]]]].
  - apply FB. intros h d Hd. split.
    + intros (r & E). apply vec_ber_ok in E as (K & _ & Rw); [|exact R|exact Hd]. eauto.
    + intros (K & w & Rw & <-). exists []. apply vec_ber_ok; auto.
  - apply FD. intros h d Hd. split.
    + intros (r & E). apply vec_der_ok in E as (K & _ & Rw); [|exact R|exact Hd]. eauto.
    + intros (K & w & Rw & <-). exists []. apply vec_der_ok; auto.
  - apply FB. intros h d Hd. unfold array_content. split.
    + intros (r & E). apply bind_ok in E as ([r' w] & E & F). apply vec_ber_ok in E as (K & _ & Rw); [|exact R|exact Hd].
      destruct (Nat.eqb_spec (length w) n) as [L|L]; [|discriminate]. injection F as _ <-. eauto.
    + intros (K & w & Rw & -> & L). exists []. rewrite (proj2 (vec_ber_ok P h d [] w R Hd)) by auto. cbn [bind].
      rewrite L, Nat.eqb_refl. reflexivity.
  - apply FD. intros h d Hd. unfold array_content. split.
    + intros (r & E). apply bind_ok in E as ([r' w] & E & F). apply vec_der_ok in E as (K & _ & Rw); [|exact R|exact Hd].
      destruct (Nat.eqb_spec (length w) n) as [L|L]; [|discriminate]. injection F as _ <-. eauto.
    + intros (K & w & Rw & -> & L). exists []. rewrite (proj2 (vec_der_ok P h d [] w R Hd)) by auto. cbn [bind].
      rewrite L, Nat.eqb_refl. reflexivity.
  - apply FB. intros h d Hd. split.
    + intros (r & E). apply SB in E as (K & _ & Rw); [|exact Hd]. eauto.
    + intros (K & w & Rw & <-). exists []. apply SB; auto.
  - apply FD. intros h d Hd. split.
    + intros (r & E). apply SD in E as (K & _ & Rw); [|exact Hd]. eauto.
    + intros (K & w & Rw & <-). exists []. apply SD; auto.
  - apply FB. intros h d Hd. unfold btreeset_content. split.
    + intros (r & E). apply bind_ok in E as ([r' w] & E & F). apply SB in E as (K & _ & Rw); [|exact Hd]. injection F as _ <-. eauto.
    + intros (K & w & Rw & ->). exists []. rewrite (proj2 (SB h d [] w Hd)) by auto. reflexivity.
  - apply FD. intros h d Hd. unfold btreeset_content. split.
    + intros (r & E). apply bind_ok in E as ([r' w] & E & F). apply SD in E as (K & _ & Rw); [|exact Hd]. injection F as _ <-. eauto.
    + intros (K & w & Rw & ->). exists []. rewrite (proj2 (SD h d [] w Hd)) by auto. reflexivity.
Qed.
Print Assumptions C51_parse_accept.

(** The same through [FromBer] and [FromDer].  [Vec], [SequenceOf] and [SetOf] do not look at the form of
    the object in [from_der]. *)
Theorem C51_from_accept_partial {T} (L : legacy T) cmp (i rem : bytes) (vs : list T) :
  consuming (lg_from_ber L) -> consuming (lg_from_der L) -> bytes_ok i ->
  let accepts_ber tag (Q : list T -> Prop) :=
    exists c content vs0, starts_with_ber_object c true tag content i rem /\ reads_all (lg_from_ber L) content vs0 /\ Q vs0 in
  let accepts_der (form : bool -> Prop) tag (Q : list T -> Prop) :=
    exists c k content vs0, form k /\ starts_with_object c k tag content i rem /\ reads_all (lg_from_der L) content vs0 /\ Q vs0 in
  (lg_from_ber (vec_legacy L) i = Ok (rem, vs) <-> accepts_ber 16 (eq vs))
  /\ (lg_from_der (vec_legacy L) i = Ok (rem, vs) <-> accepts_der (fun _ => True) 16 (eq vs))
  /\ (lg_from_ber (setof_legacy L) i = Ok (rem, vs) <-> accepts_ber 17 (eq vs))
  /\ (lg_from_der (setof_legacy L) i = Ok (rem, vs) <-> accepts_der (fun _ => True) 17 (eq vs))
  /\ (lg_from_ber (btreeset_legacy cmp L) i = Ok (rem, vs) <-> accepts_ber 17 (fun w => vs = set_of_list cmp w))
  /\ (lg_from_der (btreeset_legacy cmp L) i = Ok (rem, vs) <-> accepts_der (fun k => k = true) 17 (fun w => vs = set_of_list cmp w)).
Proof.
  intros CB CD Hi AB AD.
  assert (FB : forall tag tf g,
    (forall a, tf a = let* _ := assert_tag (any_header a) tag in let* _ := assert_constructed (any_header a) in
                      let* w := seq_items (lg_from_ber L) (any_data a) in Ok (g w)) ->
    (blanket_from_ber tf i = Ok (rem, vs) <-> AB tag (fun w => vs = g w))).
  { intros tag tf g Htf. unfold blanket_from_ber, AB. split.
    - intros E. apply bind_ok in E as ([r a] & E & F). apply bind_ok in F as (x & F & E'). injection E' as -> ->.
      rewrite Htf in F. apply bind_ok in F as ([] & Ta & F). apply bind_ok in F as ([] & K & F).
      apply bind_ok in F as (w & F & E'). injection E' as <-. apply assert_tag_ok in Ta. apply assert_constructed_ok in K.
      destruct (any_ber_object _ _ _ Hi E) as (O & Hd & _). rewrite Ta, K in O.
      apply seq_items_reads in F; [|exact CB|exact Hd]. eauto 7.
    - intros (c & d & w & O & Rw & ->). destruct (ber_object_any _ _ _ _ _ _ Hi O) as (h & E & Cl & K & Ta).
      destruct (any_ber_object _ _ _ Hi E) as (_ & Hd & _). cbn [any_data] in Hd.
      rewrite E. cbn [bind]. rewrite Htf. cbn [any_header any_data]. apply assert_tag_ok in Ta. apply assert_constructed_ok in K.
      rewrite Ta, K. cbn [bind]. rewrite (proj2 (seq_items_reads _ d w CB Hd) Rw). reflexivity. }
  assert (ID : forall (o : res (list T)), (let* w := o in Ok w) = o) by (intros [w| | |]; reflexivity).
  split; [|split; [|split; [|split; [|split]]]].
  - apply (FB 16 _ (fun w => w)). intros a. unfold vec_try_from. destruct (assert_tag _ _); try reflexivity. cbn [bind].
    destruct (assert_constructed _); try reflexivity. cbn [bind]. rewrite ID. reflexivity.
  - cbn [vec_legacy lg_from_der]. unfold vec_from_der, AD. split.
    + intros E. apply bind_ok in E as ([r a] & E & F). apply bind_ok in F as ([] & Ta & F).
      apply bind_ok in F as (w & F & E'). injection E' as -> ->. apply assert_tag_ok in Ta.
      destruct (any_der_object _ _ _ Hi E) as (O & Hd & _). rewrite Ta in O.
      apply seq_items_reads in F; [|exact CD|exact Hd]. eauto 9.
    + intros (c & k & d & w & _ & O & Rw & <-). destruct (der_object_any _ _ _ _ _ _ Hi O) as (h & E & Cl & K & Ta).
      destruct (any_der_object _ _ _ Hi E) as (_ & Hd & _). cbn [any_data] in Hd.
      rewrite E. cbn [bind any_header any_data]. apply assert_tag_ok in Ta. unfold TagSequence. rewrite Ta. cbn [bind].
      rewrite (proj2 (seq_items_reads _ d vs CD Hd) Rw). reflexivity.
  - apply (FB 17 _ (fun w => w)). intros a. unfold setof_try_from. destruct (assert_tag _ _); try reflexivity. cbn [bind].
    destruct (assert_constructed _); try reflexivity. cbn [bind]. rewrite ID. reflexivity.
  - cbn [setof_legacy lg_from_der]. unfold setof_from_der, AD. rewrite from_der_any_eq. split.
    + intros E. apply bind_ok in E as ([r a] & E & F). apply bind_ok in F as ([] & Ta & F).
      apply bind_ok in F as (w & F & E'). injection E' as -> ->. apply assert_tag_ok in Ta.
      destruct (any_der_object _ _ _ Hi E) as (O & Hd & _). rewrite Ta in O.
      apply seq_items_reads in F; [|exact CD|exact Hd]. eauto 9.
    + intros (c & k & d & w & _ & O & Rw & <-). destruct (der_object_any _ _ _ _ _ _ Hi O) as (h & E & Cl & K & Ta).
      destruct (any_der_object _ _ _ Hi E) as (_ & Hd & _). cbn [any_data] in Hd.
      rewrite E. cbn [bind any_header any_data]. apply assert_tag_ok in Ta. unfold TagSet. rewrite Ta. cbn [bind].
      rewrite (proj2 (seq_items_reads _ d vs CD Hd) Rw). reflexivity.
  - apply (FB 17 _ (set_of_list cmp)). intros a. unfold btreeset_try_from, setof_try_from.
    destruct (assert_tag _ _); try reflexivity. cbn [bind]. destruct (assert_constructed _); reflexivity.
  - cbn [btreeset_legacy lg_from_der]. unfold btreeset_from_der, AD. rewrite from_der_any_eq. split.
    + intros E. apply bind_ok in E as ([r a] & E & F). apply bind_ok in F as ([] & Ta & F). apply bind_ok in F as ([] & K & F).
      apply bind_ok in F as (w & F & E'). injection E' as -> <-. apply assert_tag_ok in Ta. apply assert_constructed_ok in K.
      destruct (any_der_object _ _ _ Hi E) as (O & Hd & _). rewrite Ta, K in O.
      apply seq_items_reads in F; [|exact CD|exact Hd]. eauto 9.
    + intros (c & k & d & w & -> & O & Rw & ->). destruct (der_object_any _ _ _ _ _ _ Hi O) as (h & E & Cl & K & Ta).
      destruct (any_der_object _ _ _ Hi E) as (_ & Hd & _). cbn [any_data] in Hd.
      rewrite E. cbn [bind any_header any_data]. apply assert_tag_ok in Ta. apply assert_constructed_ok in K.
      unfold TagSet. rewrite Ta, K. cbn [bind]. rewrite (proj2 (seq_items_reads _ d w CD Hd) Rw). reflexivity.
Qed.
Print Assumptions C51_from_accept_partial.

(** Every type expression reads at least two octets, so the hypotheses of [C51_from_accept_partial] hold for
    all of them. *)
Lemma any_ber_consuming : consuming parse_ber_any.
Proof.
  intros i rem a Hi E. rewrite <- any_parse_ber_eq in E by exact Hi.
  destruct (proj2 object_parser_ber _ _ _ Hi E) as (pre & -> & Hl & _). rewrite app_length. split; [lia|].
  apply bytes_ok_app in Hi. tauto.
Qed.
Lemma any_der_consuming : consuming parse_der_any.
Proof.
  intros i rem a Hi E. rewrite <- any_parse_der_eq in E by exact Hi.
  destruct (proj2 object_parser_der _ _ _ Hi E) as (pre & -> & Hl & _). rewrite app_length. split; [lia|].
  apply bytes_ok_app in Hi. tauto.
Qed.
Lemma consuming_then {T} (p : bytes -> res (bytes * any)) (f : any -> res T) q :
  consuming p -> (forall i rem v, q i = Ok (rem, v) -> exists a, p i = Ok (rem, a)) -> @consuming T q.
Proof. intros Hp Hq i rem v Hi E. destruct (Hq _ _ _ E) as (a & E'). exact (Hp _ _ _ Hi E'). Qed.

Theorem C51_consuming {A} (t : ty A) : consuming (lg_from_ber (legacy_of t)) /\ consuming (lg_from_der (legacy_of t)).
Proof.
  assert (B : forall T (f : any -> res T), consuming (blanket_from_ber f)).
  { intros T f. apply (consuming_then parse_ber_any f); [apply any_ber_consuming|]. intros i rem v E.
    unfold blanket_from_ber in E. apply bind_ok in E as ([r a] & E & F). apply bind_ok in F as (x & F & G).
    injection G as -> ->. eauto. }
  assert (D : forall T (q : bytes -> res (bytes * T)),
    (forall i rem v, q i = Ok (rem, v) -> exists a, parse_der_any i = Ok (rem, a)) -> consuming q).
  { intros T q H. apply (consuming_then parse_der_any (fun _ => Err EUnsupported)); [apply any_der_consuming|exact H]. }
  destruct t as [b|A t|A n t|A t|A cmp t|A c n t|A c n t];
    cbn [legacy_of codec_legacy no_legacy vec_legacy setof_legacy btreeset_legacy explicit_legacy implicit_legacy
         lg_from_ber lg_from_der].
  - split; [apply B|]. apply D. intros i rem v E. unfold from_der in E. apply bind_ok in E as ([r a] & E & F).
    apply bind_ok in F as ([] & _ & F). apply bind_ok in F as (x & _ & G). injection G as -> _. eauto.
  - split; [apply B|]. apply D. intros i rem v E. unfold vec_from_der in E. apply bind_ok in E as ([r a] & E & F).
    apply bind_ok in F as ([] & _ & F). apply bind_ok in F as (x & _ & G). injection G as -> _. eauto.
  - split; intros i rem v _ E; discriminate.
  - split; [apply B|]. apply D. intros i rem v E. unfold setof_from_der in E. rewrite from_der_any_eq in E.
    apply bind_ok in E as ([r a] & E & F). apply bind_ok in F as ([] & _ & F). apply bind_ok in F as (x & _ & G).
    injection G as -> _. eauto.
  - split; [apply B|]. apply D. intros i rem v E. unfold btreeset_from_der in E. rewrite from_der_any_eq in E.
    apply bind_ok in E as ([r a] & E & F). apply bind_ok in F as ([] & _ & F). apply bind_ok in F as ([] & _ & F).
    apply bind_ok in F as (x & _ & G). injection G as -> _. eauto.
  - split; [apply B|]. apply D. intros i rem v E. unfold explicit_from_der in E. rewrite from_der_any_eq in E.
    apply bind_ok in E as ([r a] & E & F). apply bind_ok in F as ([] & _ & F). apply bind_ok in F as ([] & _ & F).
    apply bind_ok in F as ([] & _ & F). apply bind_ok in F as ([r' x] & _ & G). injection G as -> _. eauto.
  - split; [apply B|]. apply D. intros i rem v E. unfold implicit_from_der in E. rewrite from_der_any_eq in E.
    apply bind_ok in E as ([r a] & E & F). apply bind_ok in F as (x & _ & G). injection G as -> _. eauto.
Qed.
Print Assumptions C51_consuming.

Example C51_case :
  let P := parser_of (TBase (BUint 1)) in
  let L := legacy_of (TBase (BUint 1)) in
  ps_parse_ber (vec_parser P) [0x30; 6; 2; 1; 5; 2; 1; 6; 9] = Ok ([9], [5; 6]%Z)
  /\ ps_parse_der (setof_parser P) [0x31; 6; 2; 1; 5; 2; 1; 6; 9] = Ok ([9], [5; 6]%Z)
  /\ ps_parse_der (array_parser 2 P) [0x30; 6; 2; 1; 5; 2; 1; 6] = Ok ([], [5; 6]%Z)
  /\ lg_from_ber (vec_legacy L) [0x30; 0x80; 2; 1; 5; 0; 0; 9] = Ok ([9], [5]%Z)
  /\ ps_parse_ber (vec_parser P) [0x30; 0] = Ok ([], [])
  /\ (forall rem vs, ps_parse_ber (vec_parser P) [0x30; 3; 2; 1; 5; 9] <> Ok (rem, 6%Z :: vs)).
Proof. repeat split; try (vm_compute; reflexivity). intros rem vs. vm_compute. discriminate. Qed.

(** The form of the object is not checked by [from_der] of [Vec], [SequenceOf] and [SetOf], although
    X.690 8.10.1 and 8.12.1 require the constructed form.  [parse_der] and [from_ber] reject the same octets. *)
Theorem C51_form_refuted :
  let L := legacy_of (TBase (BUint 1)) in
  let P := parser_of (TBase (BUint 1)) in
  let i := [0x10; 3; 2; 1; 1] in let s := [0x11; 3; 2; 1; 1] in
  lg_from_der (vec_legacy L) i = Ok ([], [1%Z]) /\ lg_from_der (setof_legacy L) s = Ok ([], [1%Z])
  /\ ps_parse_der (vec_parser P) i = Err EConstructExpected /\ lg_from_ber (vec_legacy L) i = Err EConstructExpected
  /\ ps_parse_der (setof_parser P) s = Err EConstructExpected /\ lg_from_ber (setof_legacy L) s = Err EConstructExpected.
Proof. vm_compute. repeat split. Qed.
Print Assumptions C51_form_refuted.

(** Elements which may read nothing: [Vec<Option<u8>>] reading an element which is not an INTEGER takes [None]
    without moving, for ever.  Whatever number of steps is allowed, the loop has not ended. *)
Theorem C51_option_elements_refuted :
  let L := legacy_of (TBase (BUint 1)) in
  let o := option_from_der (is_tag 2) L in
  (forall fuel, seq_collect o fuel [4; 0] = Err EFuel)
  /\ vec_from_der (mk_legacy 2 (fun _ => Err EUnsupported) (fun _ => Ok tt) o o) [0x30; 2; 4; 0] = Err EFuel.
Proof.
  intros L o.
  assert (E : o [4; 0] = Ok ([4; 0], None)) by (vm_compute; reflexivity).
  split; [|vm_compute; reflexivity].
  induction fuel as [|f IH]; [reflexivity|]. cbn [seq_collect]. change (blen [4; 0] =? 0) with false. cbn iota.
  rewrite E. cbn [close bind]. rewrite IH. reflexivity.
Qed.
Print Assumptions C51_option_elements_refuted.
