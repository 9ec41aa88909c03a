(** C92: why the check of a list refuses an object. *)
From Verif Require Import Base MHeader MEncode SHeader PArith PHeader PEncode MBer SBer PBer PIter PCodec PropBer.
From Verif Require Import MInt SInt PInt PropInt MSeg SSeg PSeg MOid MText SText PropText.
From Verif Require Import MTime STime MCont SCont PCont SBase PBase PTypes PropCont PropTag PropItems PropTime MColl MDerive MCheck PropCheck.

(** Reading the next object and checking it. *)
Definition next_check {T} (L : legacy T) (i : bytes) : res unit := close (let* (_, x) := parse_der_any i in lg_check L x).

(** [d] is a list of objects that pass, and then something that does not, for the reason [r]. *)
Definition stops_with {T} (L : legacy T) (P : bool -> N -> blength -> bytes -> Prop) (d : bytes) (r : res unit) : Prop :=
  exists good rest, d = good ++ rest /\ objects_all P good /\ rest <> [] /\ next_check L rest = r.

Section Items.
  Context {T : Type} (L : legacy T) (P : bool -> N -> blength -> bytes -> Prop).
  Context (HP : forall a, bytes_ok (any_data a) -> (lg_check L a = Ok tt <->
     P (h_constructed (any_header a)) (h_tag (any_header a)) (h_length (any_header a)) (any_data a))).
  Let p := fun i => let* (rem, x) := from_der any_codec i in let* _ := lg_check L x in Ok (rem, tt).

  Lemma next_p i : next_check L i = (let* _ := close (p i) in Ok tt).
  Proof.
    unfold next_check, p. rewrite from_der_any_eq. destruct (parse_der_any i) as [[rem x]| | |]; try reflexivity. cbn [bind].
    destruct (lg_check L x) as [[]| | |]; reflexivity.
  Qed.

  Lemma object_apart c k n cb i rem : starts_with_object c k n cb i rem ->
    exists e, e <> [] /\ i = e ++ rem /\ starts_with_object c k n cb e [].
  Proof.
    intros (t & idb & lenb & HR & Ht & ->). exists (idb ++ lenb ++ cb). split; [|split].
    - apply readable_nonempty in HR. intros E. rewrite app_assoc in E. apply app_eq_nil in E as [E _]. rewrite E in HR. cbn in HR. lia.
    - rewrite <- !app_assoc. reflexivity.
    - exists t, idb, lenb. rewrite app_nil_r. auto.
  Qed.
  Lemma object_together c k n cb e w : starts_with_object c k n cb e [] -> starts_with_object c k n cb (e ++ w) w.
  Proof. intros (t & idb & lenb & HR & Ht & ->). exists t, idb, lenb. rewrite app_nil_r, <- !app_assoc. auto. Qed.

  Lemma items_stop r : r <> Ok tt -> forall fuel d, (length d < fuel)%nat -> bytes_ok d ->
    ((let* _ := seq_collect p fuel d in Ok tt) = r <-> stops_with L P d r).
  Proof.
    intros Hr. induction fuel as [|fuel IH]; intros d Lf Hd; [lia|]. cbn [seq_collect].
    destruct d as [|x d'].
    { split; [intros H; exfalso; apply Hr; symmetry; exact H|]. intros (good & rest & E & _ & N & _). symmetry in E. apply app_eq_nil in E as [_ E]. congruence. }
    remember (x :: d') as d eqn:Ed. replace (blen d =? 0) with false by (subst d; symmetry; apply N.eqb_neq; unfold blen; cbn [length]; lia).
    assert (Hp : forall i rem u, bytes_ok i -> (p i = Ok (rem, u) <-> exists c k n cb, starts_with_object c k n cb i rem /\ P k n (Definite (blen cb)) cb))
      by (intros; apply check_item_ok; assumption).
    assert (First : forall good rest, d = good ++ rest -> objects_all P good ->
              good = [] \/ exists e w, e <> [] /\ good = e ++ w /\ objects_all P w /\ p d = Ok (w ++ rest, tt)
                                     /\ objects_all P e).
    { intros good rest E (es & -> & F). destruct F as [|e es (c & k & n & cb & He & H) F]; [left; reflexivity|]. right.
      exists e, (concat es). destruct (object_apart _ _ _ _ _ _ He) as (e' & Hne & E' & _). rewrite app_nil_r in E'. subst e'.
      split; [exact Hne|]. split; [reflexivity|]. split; [exists es; auto|]. split.
      - apply Hp; [exact Hd|]. exists c, k, n, cb. split; [|exact H]. rewrite E. cbn [concat]. rewrite <- app_assoc. apply object_together, He.
      - exists [e]. split; [cbn; symmetry; apply app_nil_r|]. constructor; [|constructor]. exists c, k, n, cb. auto. }
    destruct (p d) as [[rem []]|e|n|] eqn:E; cbn [close bind].
    - pose proof E as E'. apply Hp in E' as (c & k & n & cb & O & H); [|exact Hd].
      destruct (object_apart _ _ _ _ _ _ O) as (o & No & Eo & Oo).
      assert (Hrem : bytes_ok rem) by (rewrite Eo in Hd; apply bytes_ok_app in Hd; apply Hd).
      assert (Lr : (length rem < fuel)%nat). { rewrite Eo, app_length in Lf. destruct o; [congruence|cbn [length] in Lf; lia]. }
      replace (let* _ := (let* xs := seq_collect p fuel rem in Ok (tt :: xs)) in Ok tt) with (let* _ := seq_collect p fuel rem in @Ok unit tt)
        by (destruct (seq_collect p fuel rem); reflexivity).
      rewrite (IH rem Lr Hrem). split.
      + intros (good & rest & E1 & (es & -> & F) & N & R). exists (o ++ concat es), rest. split; [rewrite Eo, E1, app_assoc; reflexivity|].
        split; [|auto]. exists (o :: es). split; [reflexivity|]. constructor; [|exact F]. exists c, k, n, cb. auto.
      + intros (good & rest & E1 & G & N & R). destruct (First _ _ E1 G) as [-> |(e1 & w & _ & -> & Gw & Ew & _)].
        * exfalso. cbn [app] in E1. subst rest. rewrite next_p, E in R. cbn in R. congruence.
        * injection Ew as ->. exists w, rest. auto.
    - split.
      + intros <-. exists [], d. split; [reflexivity|]. split; [exists []; split; [reflexivity|constructor]|]. split; [subst d; discriminate|].
        rewrite next_p, E. reflexivity.
      + intros (good & rest & E1 & G & N & R). destruct (First _ _ E1 G) as [-> |(e1 & w & _ & _ & _ & Ew & _)]; [|discriminate].
        cbn [app] in E1. subst rest. rewrite next_p, E in R. exact R.
    - split.
      + intros <-. exists [], d. split; [reflexivity|]. split; [exists []; split; [reflexivity|constructor]|]. split; [subst d; discriminate|].
        rewrite next_p, E. reflexivity.
      + intros (good & rest & E1 & G & N & R). destruct (First _ _ E1 G) as [-> |(e1 & w & _ & _ & _ & Ew & _)]; [|discriminate].
        cbn [app] in E1. subst rest. rewrite next_p, E in R. exact R.
    - split.
      + intros <-. exists [], d. split; [reflexivity|]. split; [exists []; split; [reflexivity|constructor]|]. split; [subst d; discriminate|].
        rewrite next_p, E. reflexivity.
      + intros (good & rest & E1 & G & N & R). destruct (First _ _ E1 G) as [-> |(e1 & w & _ & _ & _ & Ew & _)]; [|discriminate].
        cbn [app] in E1. subst rest. rewrite next_p, E in R. exact R.
  Qed.
End Items.

(** The lists: their number and the type of their elements. *)
Inductive list_of {A} (t : ty A) : forall B, ty B -> N -> Prop :=
| of_vec : list_of t _ (TVec t) 16
| of_set : list_of t _ (TSetOf t) 17
| of_btree cmp : list_of t _ (TBTreeSet cmp t) 17.

(** The tag first, then the form, then the elements from the first on: the reason is that of the first element that is no object
    or does not pass. *)
Theorem C92_why_list {A B} (t : ty A) (l : ty B) (number : N) (a : any) :
  list_of t B l number -> has_legacy t -> bytes_ok (any_data a) ->
  let check := lg_check (legacy_of l) a in
  (h_tag (any_header a) <> number -> check = Err EUnexpectedTag)
  /\ (h_tag (any_header a) = number -> h_constructed (any_header a) = false -> check = Err EConstructExpected)
  /\ (h_tag (any_header a) = number -> h_constructed (any_header a) = true ->
      forall r, r <> Ok tt -> (check = r <-> stops_with (legacy_of t) (passes t) (any_data a) r)).
Proof.
  intros Hl HL Hd check.
  assert (E : check = (let* _ := assert_tag (any_header a) number in let* _ := assert_constructed (any_header a) in items_check (legacy_of t) a)).
  { subst check. destruct Hl; reflexivity. }
  clearbody check. subst check. unfold assert_tag, assert_constructed. split; [|split].
  - intros N. apply N.eqb_neq in N. rewrite N. reflexivity.
  - intros -> K. rewrite N.eqb_refl, K. reflexivity.
  - intros -> K r Hr. rewrite N.eqb_refl, K. cbn [bind]. unfold items_check, seq_items. apply items_stop; [|exact Hr|lia|exact Hd].
    intros x Hx. apply C92_check_partial; assumption.
Qed.
Print Assumptions C92_why_list.

(** SEQUENCE OF INTEGER { 1, 2 in two octets, 3 cut short }. *)
Example C92_why_list_case :
  let t := TBase (BInt 4) in
  let a := obj true 16 [2; 1; 1; 2; 2; 0; 2; 2; 1] in
  list_of t _ (TVec t) 16
  /\ lg_check (legacy_of (TVec t)) a = Err (EDerConstraintFailed DCIntegerLeadingZeroes)
  /\ stops_with (legacy_of t) (passes t) (any_data a) (Err (EDerConstraintFailed DCIntegerLeadingZeroes)).
Proof.
  intros t a. split; [constructor|].
  assert (E : lg_check (legacy_of (TVec t)) a = Err (EDerConstraintFailed DCIntegerLeadingZeroes)) by (vm_compute; reflexivity).
  split; [exact E|].
  assert (Hd : bytes_ok (any_data a)) by (repeat constructor).
  apply (C92_why_list t (TVec t) 16 a (of_vec t) I Hd); [reflexivity|reflexivity|discriminate|exact E].
Qed.
