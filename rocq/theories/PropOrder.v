(** C42, continued: exactly when a set is written in ascending order of the encodings of its elements. *)
From Verif Require Import Base MHeader MEncode SHeader PArith PHeader PEncode MBer SBer PBer PIter PCodec.
From Verif Require Import MInt SInt PInt MSeg SSeg MOid MText SText PText PropText.
From Verif Require Import MCont SCont PCont SBase PBase PTypes PropCont PropTag.
From Verif Require Import MTime STime MOrd PropCanon.

(** ** Comparing octet strings *)

Lemma octets_lt_cons x a b : octets_lt (x :: a) (x :: b) <-> octets_lt a b.
Proof.
  split.
  - intros (p & u & v & a' & b' & Ea & Eb & H). destruct p as [|z p]; cbn in Ea, Eb.
    + injection Ea as E1 E2. injection Eb as E3 E4. subst. lia.
    + injection Ea as _ Ea. injection Eb as _ Eb. exists p, u, v, a', b'. auto.
  - intros H. apply (octets_lt_app [x]). exact H.
Qed.
Lemma octets_lt_prefix p a b : octets_lt (p ++ a) (p ++ b) <-> octets_lt a b.
Proof. induction p as [|x p IH]; [reflexivity|]. cbn [app]. rewrite octets_lt_cons. exact IH. Qed.
Lemma octets_lt_head x y a b : x <> y -> (octets_lt (x :: a) (y :: b) <-> x < y).
Proof.
  intros D. split.
  - intros (p & u & v & a' & b' & Ea & Eb & H). destruct p as [|z p]; cbn in Ea, Eb.
    + injection Ea as -> _. injection Eb as -> _. exact H.
    + injection Ea as E1 _. injection Eb as E2 _. congruence.
  - intros H. exists [], x, y, a, b. auto.
Qed.
Lemma octets_lt_irrefl a : ~ octets_lt a a.
Proof. induction a as [|x a IH]; [intros ([|] & x & y & a' & b' & E & _); discriminate|]. rewrite octets_lt_cons. exact IH. Qed.
Lemma octets_lt_asym a b : octets_lt a b -> ~ octets_lt b a.
Proof.
  intros (p & x & y & u & v & -> & -> & H) G. rewrite octets_lt_prefix in G. rewrite octets_lt_head in G by lia. lia.
Qed.
Lemma octets_lt_ext a b x y : octets_lt a b -> octets_lt (a ++ x) (b ++ y).
Proof.
  intros (p & u & v & a' & b' & -> & -> & H). exists p, u, v, (a' ++ x), (b' ++ y).
  rewrite <- !app_assoc. cbn [app]. auto.
Qed.
Lemma val_octets_iff a b : bytes_ok a -> bytes_ok b -> length a = length b -> (octets_lt a b <-> (val a < val b)%Z).
Proof.
  intros Ha Hb L. split; [|apply val_lt_octets; assumption]. intros H.
  destruct (Z.lt_trichotomy (val a) (val b)) as [C|[C|C]]; [exact C|exfalso|exfalso].
  - assert (a = b); [|subst; exact (octets_lt_irrefl _ H)]. clear H. revert b Hb L C.
    induction a as [|x a IH]; intros [|y b] Hb L C; try discriminate; [reflexivity|].
    apply bytes_ok_cons in Ha as [Hx Ha]. apply bytes_ok_cons in Hb as [Hy Hb]. injection L as L.
    rewrite !val_cons, L in C. pose proof (val_bound a Ha) as Ba. pose proof (val_bound b Hb) as Bb. rewrite L in Ba.
    assert (x = y) as -> by nia. rewrite (IH Ha b Hb L); [reflexivity|lia].
  - apply (octets_lt_asym _ _ H). apply val_lt_octets; auto.
Qed.

(** Shortest length octets are ordered as the lengths. *)
Lemma length_octets_ordered n m l k :
  length_shortest (Definite n) l -> length_shortest (Definite m) k -> n < m -> octets_lt l k.
Proof.
  intros Hl Hk H. inversion Hl as [n1 B1|b1 O1 L1 N1 V1|]; subst; inversion Hk as [n2 B2|b2 O2 L2 N2 V2|]; subst.
  - exists [], n, m, [], []. auto.
  - exists [], n, (128 + blen b2), [], b2. split; [reflexivity|]. split; [reflexivity|lia].
  - lia.
  - assert (Hle : (length b1 <= length b2)%nat).
    { assert (b1 <> []) by (intros ->; unfold blen in L1; cbn [length] in L1; lia).
      pose proof (normal_lower 256 b1 ltac:(lia) H0 N1) as Lo.
      pose proof (value_be_bound 256 b2 eq_refl O2) as Up.
      assert (256 ^ (blen b1 - 1) < 256 ^ (N.of_nat (length b2))) as P by lia.
      apply N.pow_lt_mono_r_iff in P; [|lia]. unfold blen in P, L1. lia. }
    destruct (Nat.eq_dec (length b1) (length b2)) as [E|E].
    + unfold blen. rewrite E. apply octets_lt_cons. apply val_lt_octets; try assumption. unfold val. lia.
    + exists [], (128 + blen b1), (128 + blen b2), b1, b2. split; [reflexivity|]. split; [reflexivity|]. unfold blen. lia.
Qed.

(** ** Objects of one identifier: the shorter content comes first *)

Definition content_before (b1 b2 : bytes) : Prop :=
  blen b1 < blen b2 \/ (blen b1 = blen b2 /\ octets_lt b1 b2).

Lemma objects_order c k t i1 l1 b1 i2 l2 b2 :
  ident_shortest c k t i1 -> ident_shortest c k t i2 ->
  length_shortest (Definite (blen b1)) l1 -> length_shortest (Definite (blen b2)) l2 ->
  (octets_lt (i1 ++ l1 ++ b1) (i2 ++ l2 ++ b2) <-> content_before b1 b2).
Proof.
  intros I1 I2 L1 L2. rewrite (ident_shortest_unique _ _ _ _ _ I2 I1), octets_lt_prefix. unfold content_before.
  destruct (N.lt_trichotomy (blen b1) (blen b2)) as [C|[C|C]].
  - split; [auto|]. intros _. apply octets_lt_ext. exact (length_octets_ordered _ _ _ _ L1 L2 C).
  - rewrite C in L1. rewrite (length_shortest_unique _ _ _ L1 L2), octets_lt_prefix. split; [auto|].
    intros [D|[_ D]]; [lia|exact D].
  - split; [|intros [D|[D _]]; lia]. intros H. exfalso. apply (octets_lt_asym _ _ H).
    apply octets_lt_ext. exact (length_octets_ordered _ _ _ _ L2 L1 C).
Qed.

(** The condition on a list: every element, and the next. *)
Fixpoint chain {A} (R : A -> A -> Prop) (vs : list A) : Prop :=
  match vs with
  | v :: r => match r with w :: _ => R v w | [] => True end /\ chain R r
  | [] => True
  end.

Lemma chain_forall2 {A B} (E : A -> B -> Prop) (R : A -> A -> Prop) (Q : B -> B -> Prop) vs es :
  (forall v w e f, In v vs -> In w vs -> E v e -> E w f -> (Q e f <-> R v w)) -> Forall2 E vs es -> (chain Q es <-> chain R vs).
Proof.
  intros H F. induction F as [|v e vs es Hv F IH]; [reflexivity|]. cbn [chain].
  rewrite IH by (intros; apply H; auto; right; assumption).
  destruct F as [|w f vs es Hw F]; [reflexivity|].
  rewrite (H v w e f (or_introl eq_refl) (or_intror (or_introl eq_refl)) Hv Hw). reflexivity.
Qed.
Lemma octets_ascending_chain es : octets_ascending es <-> chain octets_lt es.
Proof. induction es as [|e es IH]; [reflexivity|]. cbn [octets_ascending chain]. rewrite IH. reflexivity. Qed.

(** ** The sets written *)

(** How the elements are written, for any order of values and any element type of one identifier. *)
Lemma set_written {A} (cmp : A -> A -> comparison) (t : ty A) (vs : list A) (n : N) i :
  let s := TBTreeSet cmp t in
  wf s -> sx_valid (syntax_of s) vs -> total_len (wr_der (writer_of s) vs) = Definite n -> n < 2 ^ 24 ->
  (forall v, sx_ident (syntax_of t) v = i) ->
  exists idb lenb cbs es,
    to_vec (wr_der (writer_of s) vs) = Ok (idb ++ lenb ++ concat es)
    /\ ident_shortest Universal true 17 idb /\ length_shortest (Definite (blen (concat es))) lenb
    /\ Forall2 (encodes (syntax_of t)) vs es /\ Forall2 (sx_content (syntax_of t)) vs cbs
    /\ (octets_ascending es <-> chain content_before cbs).
Proof.
  intros s Hwf Hv L Hn Hi.
  destruct (C26_container_roundtrip s vs n Hwf Hv L Hn) as (enc & E & En & _ & D & _).
  destruct E as (c & k & u & cb & idb & lenb & I1 & [_ C] & S1 & S2 & ->). cbn in I1. injection I1 as <- <- <-.
  assert (G : exists cbs es, cb = concat es /\ Forall2 (encodes (syntax_of t)) vs es /\ Forall2 (sx_content (syntax_of t)) vs cbs
                /\ Forall2 (fun b e => exists idb lenb, ident_shortest (fst (fst i)) (snd (fst i)) (snd i) idb
                               /\ length_shortest (Definite (blen b)) lenb /\ e = idb ++ lenb ++ b) cbs es).
  { clear - C Hi. induction C as [|v vs enc bs E C IH].
    - exists [], []. split; [reflexivity|]. repeat constructor.
    - destruct IH as (cbs & es & -> & F1 & F2 & F3).
      destruct E as (c & k & u & cb & idb & lenb & I1 & I2 & I3 & I4 & I5).
      exists (cb :: cbs), (enc :: es). split; [reflexivity|]. split; [constructor; [|exact F1]|split; [constructor; assumption|constructor; [|exact F3]]].
      + exists c, k, u, cb, idb, lenb. auto.
      + exists idb, lenb. rewrite Hi in I1. rewrite I1. auto. }
  destruct G as (cbs & es & -> & F1 & F2 & F3). exists idb, lenb, cbs, es.
  split; [exact D|]. split; [exact S1|]. split; [exact S2|]. split; [exact F1|]. split; [exact F2|].
  rewrite octets_ascending_chain. apply (chain_forall2 _ _ _ _ _) with (2 := F3).
  intros b1 b2 e1 e2 _ _ (i1 & l1 & J1 & K1 & ->) (i2 & l2 & J2 & K2 & ->).
  exact (objects_order _ _ _ _ _ _ _ _ _ J1 J2 K1 K2).
Qed.

(** Signed integers.  [v] needs at most [k] octets: *)
Definition fits_octets (k : nat) (v : Z) : Prop := (- 2 ^ (8 * Z.of_nat k - 1) <= v < 2 ^ (8 * Z.of_nat k - 1))%Z.
(** The encoding of [v] precedes that of the greater [w] if [v] is not negative, or needs fewer octets, or if
    both are negative and need the same number of octets. *)
Definition signed_in_order (v w : Z) : Prop :=
  (0 <= v)%Z \/ (exists k, (1 <= k)%nat /\ fits_octets k v /\ ~ fits_octets k w)
  \/ ((w < 0)%Z /\ forall k, (1 <= k)%nat -> (fits_octets k v <-> fits_octets k w)).

Lemma fits_length b v k : shortest_form v b -> (1 <= k)%nat -> (fits_octets k v <-> (length b <= k)%nat).
Proof.
  intros (O & S & T) Hk. unfold fits_octets. rewrite pow2_half by exact Hk.
  pose proof (proj1 (shortest_iff b O) S) as N. destruct b as [|x r]; [destruct N|]. subst v.
  pose proof (twos_bound x r O) as B. cbn [length]. split.
  - intros F. destruct r as [|y r]; [cbn; lia|]. pose proof (twos_far x y r O N) as Fa.
    destruct (Nat.le_gt_cases (length (x :: y :: r)) k) as [C|C]; [exact C|exfalso]. cbn [length] in C.
    pose proof (pw_mono (k - 1) (length r) ltac:(lia)). lia.
  - intros H. pose proof (pw_mono (length r) (k - 1) ltac:(lia)). lia.
Qed.

Lemma signed_order v w b1 b2 :
  shortest_form v b1 -> shortest_form w b2 -> (v < w)%Z -> (content_before b1 b2 <-> signed_in_order v w).
Proof.
  intros F1 F2 Hlt. pose proof F1 as (O1 & S1 & T1). pose proof F2 as (O2 & S2 & T2).
  assert (P1 : (1 <= length b1)%nat) by (destruct b1; [destruct S1; congruence|cbn; lia]).
  assert (P2 : (1 <= length b2)%nat) by (destruct b2; [destruct S2; congruence|cbn; lia]).
  pose proof (fun k => fits_length b1 v k F1) as L1. pose proof (fun k => fits_length b2 w k F2) as L2.
  assert (Vn : forall b u, bytes_ok b -> twos b = u -> (1 <= length b)%nat -> ((u < 0)%Z -> val b = (u + pw (length b))%Z)).
  { intros [|x r] u O T P Hu; [cbn in P; lia|]. subst u. pose proof (twos_sign x r O) as Sg.
    rewrite twos_val_neg by (apply Sg; exact Hu). cbn [length]. lia. }
  assert (Vp : forall b u, bytes_ok b -> twos b = u -> (0 <= u)%Z -> val b = u).
  { intros b u O T Hu. rewrite <- twos_val_nonneg by (auto; lia). exact T. }
  unfold content_before, signed_in_order, blen. split.
  - intros [H|[H H']].
    + right. left. exists (length b1). split; [exact P1|]. rewrite L1, L2 by exact P1. lia.
    + destruct (Z.le_gt_cases 0 v) as [C|C]; [left; exact C|]. right. right.
      apply val_octets_iff in H'; [|assumption|assumption|lia]. split.
      * destruct (Z.lt_ge_cases w 0) as [C'|C']; [exact C'|exfalso].
        rewrite (Vn b1 v O1 T1 P1 C), (Vp b2 w O2 T2 C') in H'. destruct b1 as [|x r]; [cbn in P1; lia|].
        destruct b2 as [|y q]; [cbn in P2; lia|]. pose proof (twos_bound x r O1). pose proof (twos_bound y q O2).
        cbn [length] in H, H'. assert (length r = length q) as E by lia. rewrite pw_S, E in H'. rewrite E in H0.
        lia.
      * intros k Hk. rewrite L1, L2 by exact Hk. lia.
  - intros [H|[(k & Hk & H1 & H2)|[H H']]].
    + assert ((length b1 <= length b2)%nat) as Le.
      { apply L1; [exact P2|]. pose proof (proj2 (L2 (length b2) P2) (le_n _)) as [_ U]. unfold fits_octets.
        split; [|lia]. pose proof (Z.pow_nonneg 2 (8 * Z.of_nat (length b2) - 1) ltac:(lia)). lia. }
      destruct (Nat.eq_dec (length b1) (length b2)) as [E|E]; [right|left; lia]. split; [lia|].
      apply val_octets_iff; try assumption. rewrite (Vp b1 v), (Vp b2 w) by (auto; lia). exact Hlt.
    + left. rewrite L1 in H1 by exact Hk. rewrite L2 in H2 by exact Hk. lia.
    + right. assert (length b1 = length b2) as E.
      { pose proof (proj1 (H' _ P1)) as A1. pose proof (proj2 (H' _ P2)) as A2. rewrite L1, L2 in A1 by exact P1.
        rewrite L1, L2 in A2 by exact P2. lia. }
      split; [lia|]. apply val_octets_iff; try assumption. rewrite (Vn b1 v), (Vn b2 w) by (auto; lia). rewrite E. lia.
Qed.

Lemma Forall2_compose {A B C} (P : A -> B -> Prop) (Q : A -> C -> Prop) (R : B -> C -> Prop) vs bs cs :
  Forall2 P vs bs -> Forall2 Q vs cs -> (forall a b c, P a b -> Q a c -> R b c) -> Forall2 R bs cs.
Proof.
  intros F. revert cs. induction F as [|a b vs bs H F IH]; intros cs G K; inversion G; subst; constructor; eauto.
Qed.

Lemma ascending_pairs (R : Z -> Z -> Prop) (Q : bytes -> bytes -> Prop) (S : Z -> bytes -> Prop) vs cbs :
  (forall v w b c, S v b -> S w c -> (v < w)%Z -> (Q b c <-> R v w)) ->
  ascending Z.compare vs -> Forall2 S vs cbs -> (chain Q cbs <-> chain R vs).
Proof.
  intros H Ha F. induction F as [|v b vs cbs Hv F IH]; [reflexivity|]. destruct Ha as [Ha1 Ha2]. cbn [chain].
  rewrite (IH Ha2). destruct F as [|w c vs cbs Hw F]; [reflexivity|]. inversion Ha1 as [|? ? C _]; subst.
  rewrite (H v w b c Hv Hw C). reflexivity.
Qed.

(** A set of signed integers is written in ascending order of the encodings exactly if each value and the next
    are [signed_in_order]. *)
Theorem C42_signed_exact w (vs : list Z) (n : N) :
  let t := TBTreeSet Z.compare (TBase (BInt w)) in
  (1 <= w <= 16)%nat -> Forall (in_signed w) vs -> ascending Z.compare vs ->
  total_len (wr_der (writer_of t) vs) = Definite n -> n < 2 ^ 24 ->
  exists idb lenb es,
    to_vec (wr_der (writer_of t) vs) = Ok (idb ++ lenb ++ concat es)
    /\ ident_shortest Universal true 17 idb /\ length_shortest (Definite (blen (concat es))) lenb
    /\ Forall2 (encodes (int_syntax w)) vs es
    /\ (octets_ascending es <-> chain signed_in_order vs).
Proof.
  intros t Hw Hv Ha L Hn.
  assert (Hwf : wf t) by (split; [intros a b; apply Z.compare_antisym|exact Hw]).
  destruct (set_written Z.compare (TBase (BInt w)) vs n (Universal, false, 2) Hwf) as (idb & lenb & cbs & es & E & I & Le & F1 & F2 & Q);
    [split; assumption|exact L|exact Hn|reflexivity|].
  exists idb, lenb, es. split; [exact E|]. split; [exact I|]. split; [exact Le|]. split; [exact F1|]. rewrite Q.
  apply (ascending_pairs _ _ (fun v b => in_signed w v /\ shortest_form v b)) with (2 := Ha) (3 := F2).
  intros v u b c [_ S1] [_ S2] Hlt. apply signed_order; assumption.
Qed.
Print Assumptions C42_signed_exact.

(** Sets of booleans are written in ascending order. *)
Theorem C42_boolean_order_partial (vs : list bool) (n : N) :
  let t := TBTreeSet Bool.compare (TBase BBool) in
  ascending Bool.compare vs -> total_len (wr_der (writer_of t) vs) = Definite n -> n < 2 ^ 24 ->
  exists idb lenb es,
    to_vec (wr_der (writer_of t) vs) = Ok (idb ++ lenb ++ concat es)
    /\ ident_shortest Universal true 17 idb /\ length_shortest (Definite (blen (concat es))) lenb
    /\ Forall2 (encodes bool_syntax) vs es /\ octets_ascending es.
Proof.
  intros t Ha L Hn.
  assert (Hwf : wf t) by (split; [intros [] []; reflexivity|exact I]).
  destruct (set_written Bool.compare (TBase BBool) vs n (Universal, false, 1) Hwf) as (idb & lenb & cbs & es & E & I1 & Le & F1 & F2 & Q);
    [split; [|exact Ha]; apply Forall_forall; intros; exact I|exact L|exact Hn|reflexivity|].
  exists idb, lenb, es. split; [exact E|]. split; [exact I1|]. split; [exact Le|]. split; [exact F1|]. apply Q.
  clear - Ha F2. induction F2 as [|v b vs cbs [_ Hv] F IH]; [exact I|]. destruct Ha as [Ha1 Ha2]. split; [|exact (IH Ha2)].
  destruct F as [|w c vs cbs [_ Hw] F]; [exact I|]. inversion Ha1 as [|? ? C _]; subst. right. split; [reflexivity|].
  destruct v, w; try discriminate. apply octets_lt_head; lia.
Qed.
Print Assumptions C42_boolean_order_partial.

(** ** Octet strings and texts *)

Lemma slice_cmp_antisym a b : slice_cmp b a = CompOpp (slice_cmp a b).
Proof.
  revert b. induction a as [|x a IH]; intros [|y b]; try reflexivity. cbn [slice_cmp].
  rewrite N.compare_antisym, (IH b). destruct (x ?= y); reflexivity.
Qed.
Lemma slice_lt a b : slice_cmp a b = Lt -> length a = length b -> octets_lt a b.
Proof.
  revert b. induction a as [|x a IH]; intros [|y b] H L; try discriminate. cbn [slice_cmp] in H. injection L as L.
  destruct (N.compare_spec x y) as [E|E|E]; cbn in H; [|exists [], x, y, a, b; auto|discriminate].
  subst y. apply octets_lt_cons. exact (IH b H L).
Qed.

Lemma sorted_chain {A B} (cmp : A -> A -> comparison) (E : A -> B -> Prop) (R : A -> A -> Prop) (Q : B -> B -> Prop) vs bs :
  (forall v w b c, E v b -> E w c -> cmp v w = Lt -> (Q b c <-> R v w)) ->
  ascending cmp vs -> Forall2 E vs bs -> (chain Q bs <-> chain R vs).
Proof.
  intros H Ha F. induction F as [|v b vs bs Hv F IH]; [reflexivity|]. destruct Ha as [Ha1 Ha2]. cbn [chain].
  rewrite (IH Ha2). destruct F as [|w c vs bs Hw F]; [reflexivity|]. inversion Ha1 as [|? ? C _]; subst.
  rewrite (H v w b c Hv Hw C). reflexivity.
Qed.

(** A set of octet strings, given as slices, is written in ascending order of the encodings exactly if the
    lengths do not decrease. *)
Theorem C42_slices_exact (vs : list bytes) (n : N) :
  let t := TBTreeSet slice_cmp (TBase BSlice) in
  Forall bytes_ok vs -> ascending slice_cmp vs ->
  total_len (wr_der (writer_of t) vs) = Definite n -> n < 2 ^ 24 ->
  exists idb lenb es,
    to_vec (wr_der (writer_of t) vs) = Ok (idb ++ lenb ++ concat es)
    /\ ident_shortest Universal true 17 idb /\ length_shortest (Definite (blen (concat es))) lenb
    /\ Forall2 (encodes octet_syntax) vs es
    /\ (octets_ascending es <-> chain (fun v w => blen v <= blen w) vs).
Proof.
  intros t Hv Ha L Hn.
  assert (Hwf : wf t) by (split; [exact slice_cmp_antisym|exact I]).
  destruct (set_written slice_cmp (TBase BSlice) vs n (Universal, false, 4) Hwf) as (idb & lenb & cbs & es & E & I1 & Le & F1 & F2 & Q);
    [split; assumption|exact L|exact Hn|reflexivity|].
  exists idb, lenb, es. split; [exact E|]. split; [exact I1|]. split; [exact Le|]. split; [exact F1|]. rewrite Q.
  apply (sorted_chain slice_cmp (fun v b => bytes_ok v /\ b = v)) with (2 := Ha) (3 := F2).
  intros v w b c [_ ->] [_ ->] C. unfold content_before. split; [lia|]. intros H.
  destruct (N.eq_dec (blen v) (blen w)) as [D|D]; [right|left; lia]. split; [exact D|].
  apply slice_lt; [exact C|unfold blen in D; lia].
Qed.
Print Assumptions C42_slices_exact.

(** The same of the texts of [str] and [String], the length being that of the UTF-8 form. *)
Theorem C42_texts_exact (vs : list (list N)) (n : N) :
  let t := TBTreeSet str_cmp (TBase BOwnedString) in
  Forall is_text vs -> ascending str_cmp vs ->
  total_len (wr_der (writer_of t) vs) = Definite n -> n < 2 ^ 24 ->
  exists idb lenb bs es,
    to_vec (wr_der (writer_of t) vs) = Ok (idb ++ lenb ++ concat es)
    /\ ident_shortest Universal true 17 idb /\ length_shortest (Definite (blen (concat es))) lenb
    /\ Forall2 (encodes (text_syntax 12 scalar)) vs es /\ Forall2 utf8 vs bs
    /\ (octets_ascending es <-> chain (fun v w => blen v <= blen w) bs).
Proof.
  intros t Hv Ha L Hn.
  assert (Hwf : wf t) by (split; [intros a b; apply slice_cmp_antisym|exact I]).
  destruct (set_written str_cmp (TBase BOwnedString) vs n (Universal, false, 12) Hwf) as (idb & lenb & cbs & es & E & I1 & Le & F1 & F2 & Q);
    [split; assumption|exact L|exact Hn|reflexivity|].
  exists idb, lenb, cbs, es. split; [exact E|]. split; [exact I1|]. split; [exact Le|]. split; [exact F1|].
  assert (F3 : Forall2 utf8 vs cbs).
  { clear - F2. induction F2 as [|v b vs cbs [_ Hv] F IH]; constructor; assumption. }
  split; [exact F3|]. rewrite Q.
  rewrite (sorted_chain str_cmp utf8 (fun v w => blen (str_bytes v) <= blen (str_bytes w))) with (2 := Ha) (3 := F3).
  - symmetry. apply (sorted_chain str_cmp utf8) with (2 := Ha) (3 := F3). intros v w b c Hb Hc _.
    apply utf8_str_bytes in Hb as [_ ->]. apply utf8_str_bytes in Hc as [_ ->]. reflexivity.
  - intros v w b c Hb Hc C. apply utf8_str_bytes in Hb as [_ ->]. apply utf8_str_bytes in Hc as [_ ->].
    unfold content_before. split; [lia|]. intros H.
    destruct (N.eq_dec (blen (str_bytes v)) (blen (str_bytes w))) as [D|D]; [right|left; lia]. split; [exact D|].
    apply slice_lt; [exact C|unfold blen in D; lia].
Qed.
Print Assumptions C42_texts_exact.

(** ** Times *)

Lemma then_antisym a b c d : c = CompOpp a -> d = CompOpp b -> then_cmp c d = CompOpp (then_cmp a b).
Proof. intros -> ->. destruct a; reflexivity. Qed.
Lemma datetime_cmp_antisym a b : datetime_cmp b a = CompOpp (datetime_cmp a b).
Proof.
  unfold datetime_cmp. repeat (apply then_antisym; [apply N.compare_antisym|]). apply then_antisym.
  - destruct (dt_millisecond a), (dt_millisecond b); try reflexivity. apply N.compare_antisym.
  - destruct (dt_tz a), (dt_tz b); try reflexivity. apply then_antisym; apply Z.compare_antisym.
Qed.

Lemma fixed_order k a b s t :
  fixed k a s -> fixed k b t -> length s = length t /\ (a = b -> s = t) /\ (a < b -> octets_lt s t).
Proof.
  intros (ds & -> & F1 & L1 & ->) (es & -> & F2 & L2 & ->). rewrite !map_length, L1, L2. split; [reflexivity|].
  rewrite <- L2 in L1. clear L2. revert es F2 L1. induction F1 as [|d ds Hd F1 IH]; intros [|e es] F2 L; try discriminate.
  - split; [reflexivity|cbn; lia].
  - inversion F2 as [|? ? He F2']; subst. injection L as L. destruct (IH es F2' L) as [I1 I2].
    cbn [map]. rewrite !value_be_cons.
    pose proof (value_be_bound 10 ds eq_refl F1) as B1. pose proof (value_be_bound 10 es eq_refl F2') as B2.
    rewrite <- L in *. set (P := 10 ^ N.of_nat (length ds)) in *. split.
    + intros H. assert (d = e) by nia. subst e. rewrite I1 by lia. reflexivity.
    + intros H. destruct (N.eq_dec d e) as [->|D]; [apply octets_lt_cons, I2; lia|].
      apply octets_lt_head; [lia|]. assert (d < e) by nia. lia.
Qed.

(** Octets that continue a comparison. *)
Lemma step_order k a b s t x y cmp :
  fixed k a s -> fixed k b t -> then_cmp (a ?= b) cmp = Lt -> (cmp = Lt -> octets_lt x y) -> octets_lt (s ++ x) (t ++ y).
Proof.
  intros F1 F2 H K. destruct (fixed_order k a b s t F1 F2) as (_ & I1 & I2). destruct (N.compare_spec a b) as [E|E|E]; cbn in H.
  - rewrite (I1 E), octets_lt_prefix. exact (K H).
  - apply octets_lt_ext. exact (I2 E).
  - discriminate.
Qed.

Lemma fixed_len k n s : fixed k n s -> length s = k.
Proof. intros (ds & -> & _ & L & _). rewrite map_length. exact L. Qed.

(** Two times of UTC, written with as many digits for the fraction. *)
Lemma times_order k a b fa fb s t :
  time_text k (written_as a fa) s -> time_text k (written_as b fb) t -> datetime_cmp a b = Lt ->
  dt_tz a = TzZ -> dt_tz b = TzZ ->
  (forall x y, frac_text fa x -> frac_text fb y -> incl x s -> incl y t ->
    length x = length y /\ (then_cmp (option_cmp (dt_millisecond a) (dt_millisecond b)) Eq = Lt -> octets_lt x y)) ->
  content_before s t.
Proof.
  intros (y1 & mo1 & d1 & h1 & mi1 & s1 & f1 & z1 & A1 & A2 & A3 & A4 & A5 & A6 & A7 & A8 & ->)
         (y2 & mo2 & d2 & h2 & mi2 & s2 & f2 & z2 & B1 & B2 & B3 & B4 & B5 & B6 & B7 & B8 & ->) C Za Zb Fr.
  cbn in A1, A2, A3, A4, A5, A6, A7, A8, B1, B2, B3, B4, B5, B6, B7, B8.
  destruct (Fr f1 f2 A7 B7) as [Lf Of].
  { intros x Hx. rewrite !in_app_iff. tauto. }
  { intros x Hx. rewrite !in_app_iff. tauto. }
  right. split.
  - unfold blen. rewrite !app_length. subst z1 z2.
    rewrite (fixed_len _ _ _ A1), (fixed_len _ _ _ A2), (fixed_len _ _ _ A3), (fixed_len _ _ _ A4), (fixed_len _ _ _ A5), (fixed_len _ _ _ A6).
    rewrite (fixed_len _ _ _ B1), (fixed_len _ _ _ B2), (fixed_len _ _ _ B3), (fixed_len _ _ _ B4), (fixed_len _ _ _ B5), (fixed_len _ _ _ B6).
    rewrite Lf. reflexivity.
  - unfold datetime_cmp in C. rewrite Za, Zb in C. subst z1 z2.
    apply (step_order _ _ _ _ _ _ _ _ A1 B1 C). clear C. intros C.
    apply (step_order _ _ _ _ _ _ _ _ A2 B2 C). clear C. intros C.
    apply (step_order _ _ _ _ _ _ _ _ A3 B3 C). clear C. intros C.
    apply (step_order _ _ _ _ _ _ _ _ A4 B4 C). clear C. intros C.
    apply (step_order _ _ _ _ _ _ _ _ A5 B5 C). clear C. intros C.
    apply (step_order _ _ _ _ _ _ _ _ A6 B6 C). clear C. intros C.
    apply octets_lt_ext. apply Of. exact C.
Qed.

Lemma sorted_all {A B} (cmp : A -> A -> comparison) (E : A -> B -> Prop) (Q : B -> B -> Prop) vs bs :
  (forall v w b c, E v b -> E w c -> cmp v w = Lt -> Q b c) -> ascending cmp vs -> Forall2 E vs bs -> chain Q bs.
Proof.
  intros H Ha F. induction F as [|v b vs bs Hv F IH]; [exact I|]. destruct Ha as [Ha1 Ha2]. cbn [chain].
  split; [|exact (IH Ha2)]. destruct F as [|w c vs bs Hw F]; [exact I|]. inversion Ha1 as [|? ? C _]; subst.
  exact (H v w b c Hv Hw C).
Qed.

(** A set of [UtcTime] in UTC is written in ascending order. *)
Theorem C42_utc_order_partial (vs : list datetime) (n : N) :
  let t := TBTreeSet datetime_cmp (TBase BUtcTime) in
  Forall (sx_valid utc_syntax) vs -> ascending datetime_cmp vs ->
  total_len (wr_der (writer_of t) vs) = Definite n -> n < 2 ^ 24 ->
  exists idb lenb es,
    to_vec (wr_der (writer_of t) vs) = Ok (idb ++ lenb ++ concat es)
    /\ ident_shortest Universal true 17 idb /\ length_shortest (Definite (blen (concat es))) lenb
    /\ Forall2 (encodes utc_syntax) vs es /\ octets_ascending es.
Proof.
  intros t Hv Ha L Hn.
  assert (Hwf : wf t) by (split; [exact datetime_cmp_antisym|exact I]).
  destruct (set_written datetime_cmp (TBase BUtcTime) vs n (Universal, false, 23) Hwf) as (idb & lenb & cbs & es & E & I1 & Le & F1 & F2 & Q);
    [split; assumption|exact L|exact Hn|reflexivity|].
  exists idb, lenb, es. split; [exact E|]. split; [exact I1|]. split; [exact Le|]. split; [exact F1|]. apply Q.
  apply (sorted_all datetime_cmp _ _ _ _) with (2 := Ha) (3 := F2).
  intros v w b c [(_ & _ & M1 & Z1) ((T1 & _) & _)] [(_ & _ & M2 & Z2) ((T2 & _) & _)] C.
  apply (times_order 2 v w None None); try assumption. intros x y -> -> _ _. rewrite M1, M2. split; [reflexivity|discriminate].
Qed.
Print Assumptions C42_utc_order_partial.

(** A set of [GeneralizedTime] in UTC is written in ascending order if no time of it has milliseconds, or if each
    has milliseconds of three digits. *)
Theorem C42_generalized_order_partial (vs : list datetime) (n : N) :
  let t := TBTreeSet datetime_cmp (TBase BGeneralizedTime) in
  Forall (sx_valid gen_syntax) vs -> ascending datetime_cmp vs ->
  Forall (fun v => dt_millisecond v = None) vs \/ Forall (fun v => exists m, dt_millisecond v = Some m /\ 100 <= m < 1000) vs ->
  total_len (wr_der (writer_of t) vs) = Definite n -> n < 2 ^ 24 ->
  exists idb lenb es,
    to_vec (wr_der (writer_of t) vs) = Ok (idb ++ lenb ++ concat es)
    /\ ident_shortest Universal true 17 idb /\ length_shortest (Definite (blen (concat es))) lenb
    /\ Forall2 (encodes gen_syntax) vs es /\ octets_ascending es.
Proof.
  intros t Hv Ha Hm L Hn.
  assert (Hwf : wf t) by (split; [exact datetime_cmp_antisym|exact I]).
  destruct (set_written datetime_cmp (TBase BGeneralizedTime) vs n (Universal, false, 24) Hwf) as (idb & lenb & cbs & es & E & I1 & Le & F1 & F2 & Q);
    [split; assumption|exact L|exact Hn|reflexivity|].
  exists idb, lenb, es. split; [exact E|]. split; [exact I1|]. split; [exact Le|]. split; [exact F1|]. apply Q.
  assert (And : forall P : datetime -> Prop, Forall P vs -> Forall2 (fun v b => P v /\ sx_content gen_syntax v b) vs cbs).
  { intros P HP. clear - F2 HP. induction F2 as [|v b vs cbs H F IH]; constructor; inversion HP; subst; auto. }
  destruct Hm as [Hm|Hm]; apply And in Hm; apply (sorted_all datetime_cmp _ _ _ _) with (2 := Ha) (3 := Hm).
  - intros v w b c [M1 [(_ & _ & _ & Z1) (f1 & S1 & T1 & _)]] [M2 [(_ & _ & _ & Z2) (f2 & S2 & T2 & _)]] C.
    rewrite M1 in S1. rewrite M2 in S2. destruct f1; [destruct S1|]. destruct f2; [destruct S2|].
    apply (times_order 4 v w None None); try assumption. intros x y -> -> _ _. rewrite M1, M2. split; [reflexivity|discriminate].
  - intros v w b c [(m1 & M1 & R1) [(_ & _ & _ & Z1) (f1 & S1 & T1 & N1)]] [(m2 & M2 & R2) [(_ & _ & _ & Z2) (f2 & S2 & T2 & N2)]] C.
    rewrite M1 in S1. rewrite M2 in S2. destruct f1 as [ds1|]; [|destruct S1]. destruct f2 as [ds2|]; [|destruct S2].
    destruct S1 as (D1 & V1 & H1), S2 as (D2 & V2 & H2).
    assert (Three : forall ds, Forall (fun d => d < 10) ds -> ds = [0] \/ hd 0 ds <> 0 -> 100 <= value_be 10 ds < 1000 -> length ds = 3%nat).
    { intros ds D H V. destruct H as [->|H]; [cbn in V; lia|].
      assert (Ne : ds <> []) by (intros ->; apply H; reflexivity).
      assert (Nm : normal ds) by (destruct ds; [exact I|exact H]).
      pose proof (normal_lower 10 ds ltac:(lia) Ne Nm) as Lo. pose proof (value_be_bound 10 ds eq_refl D) as Up.
      assert (blen ds - 1 < 3) by (apply (N.pow_lt_mono_r_iff 10); [lia|]; change (10 ^ 3) with 1000; lia).
      assert (2 < N.of_nat (length ds)) by (apply (N.pow_lt_mono_r_iff 10); [lia|]; change (10 ^ 2) with 100; lia).
      unfold blen in *. lia. }
    subst m1 m2. pose proof (Three ds1 D1 H1 R1) as L1. pose proof (Three ds2 D2 H2 R2) as L2.
    apply (times_order 4 v w (Some ds1) (Some ds2)); try assumption. intros x y (_ & p & Hp & ->) (_ & q & Hq & ->) Ix Iy.
    assert (p = 46) as -> by (destruct Hp as [|E1]; [assumption|exfalso; apply N1, Ix; left; exact E1]).
    assert (q = 46) as -> by (destruct Hq as [|E1]; [assumption|exfalso; apply N2, Iy; left; exact E1]).
    rewrite M1, M2. cbn [length option_cmp]. rewrite !map_length, L1, L2. split; [reflexivity|]. intros Cm.
    apply octets_lt_cons. destruct (fixed_order 3 (value_be 10 ds1) (value_be 10 ds2) (map (fun d => 48 + d) ds1) (map (fun d => 48 + d) ds2)) as (_ & _ & O).
    + exists ds1. auto.
    + exists ds2. auto.
    + apply O. destruct (N.compare_spec (value_be 10 ds1) (value_be 10 ds2)); cbn in Cm; [discriminate|assumption|discriminate].
Qed.
Print Assumptions C42_generalized_order_partial.

(** ** Counter-examples and examples *)

Definition sample_time (second : N) (ms : option N) : datetime := mk_datetime 2024 2 29 12 30 second ms TzZ.

(** Times with and without milliseconds are not written in order, nor are slices of decreasing length. *)
Theorem C42_lengths_refuted :
  exists vs e1 e2 ws f1 f2,
    let t := TBTreeSet datetime_cmp (TBase BGeneralizedTime) in let u := TBTreeSet slice_cmp (TBase BSlice) in
    Forall (sx_valid gen_syntax) vs /\ ascending datetime_cmp vs
    /\ to_vec (wr_der (writer_of t) vs) = Ok (0x31 :: 38 :: e1 ++ e2) /\ octets_lt e2 e1
    /\ Forall2 (fun v e => to_vec (wr_der (writer_of (TBase BGeneralizedTime)) v) = Ok e) vs [e1; e2]
    /\ Forall bytes_ok ws /\ ascending slice_cmp ws
    /\ to_vec (wr_der (writer_of u) ws) = Ok (0x31 :: 7 :: f1 ++ f2) /\ octets_lt f2 f1
    /\ Forall2 (fun v e => to_vec (wr_der (writer_of (TBase BSlice)) v) = Ok e) ws [f1; f2].
Proof.
  exists [sample_time 0 (Some 500); sample_time 1 None].
  exists (24 :: 19 :: [50;48;50;52;48;50;50;57;49;50;51;48;48;48;46;53;48;48;90]), (24 :: 15 :: [50;48;50;52;48;50;50;57;49;50;51;48;48;49;90]).
  exists [[1; 1]; [2]], [4; 2; 1; 1], [4; 1; 2]. cbv zeta.
  split. { repeat constructor; cbn; try lia; try (left; lia); right; lia. }
  split; [repeat constructor|]. split; [vm_compute; reflexivity|].
  split; [eexists [24], 15, 19, _, _; split; [reflexivity|]; split; [reflexivity|lia]|].
  split; [repeat constructor|]. split; [repeat constructor|]. split; [repeat constructor|]. split; [vm_compute; reflexivity|].
  split; [exists [4], 1, 2, [2], [1; 1]; split; [reflexivity|]; split; [reflexivity|lia]|repeat constructor].
Qed.
Print Assumptions C42_lengths_refuted.

(** ** What the decoders accept *)

(** Elements in any order, and more than once: the set of them is read, in ascending order of the values. *)
Definition collected_syntax {T} (cmp : T -> T -> comparison) (S : syntax T) : syntax (list T) :=
  mk_syntax (Forall (sx_valid S)) (fun _ => (Universal, true, 17))
    (fun s cb => exists vs, s = set_of_list cmp vs /\ items_content S vs cb).

Lemma collected_syntax_ok {T} (cmp : T -> T -> comparison) (S : syntax T) : syntax_ok S -> syntax_ok (collected_syntax cmp S).
Proof.
  intros Hs v cb c k t E (vs & _ & C). cbn in E. injection E as <- <- <-. split; [lia|]. eapply items_ok; eassumption.
Qed.
Lemma collected_parser_sound {T} (cmp : T -> T -> comparison) (P : parser T) (S : syntax T) :
  parser_sound P S -> syntax_ok S -> parser_sound (btreeset_parser cmp P) (collected_syntax cmp S).
Proof.
  intros HP Hs. split; [apply default_regular|].
  intros s cb c k t E (v & -> & C) Hn. injection E as <- <- <-. split; [reflexivity|]. intros rt rh h.
  destruct (setof_contents P S v cb h HP Hs C Hn eq_refl) as [H1 H2].
  cbn [btreeset_parser default_parser codec_parser ps_ber_content ps_der_content ber_content der_content].
  unfold btreeset_content. rewrite H1, H2. cbn [bind]. split; exists []; reflexivity.
Qed.
Lemma collected_legacy_sound {T} (cmp : T -> T -> comparison) (L : legacy T) (S : syntax T) :
  legacy_sound L S -> syntax_ok S -> legacy_sound (btreeset_legacy cmp L) (collected_syntax cmp S).
Proof.
  intros HL Hs. split; [reflexivity|]. split.
  - intros s cb c k t E (v & -> & C) Hn. injection E as <- <- <-. split; [reflexivity|]. intros rt rh h.
    destruct (legacy_items L S v cb HL Hs C Hn) as [I1 I2].
    cbn [btreeset_legacy lg_try_from lg_check]. unfold btreeset_try_from, setof_try_from, setof_check.
    cbn [any_header any_data]. subst h.
    rewrite assert_tag_same, assert_constructed_true. cbn [bind]. rewrite I1. cbn [bind]. split; [reflexivity|].
    eapply items_check_ok; eassumption.
  - apply legacy_from_object; [apply collected_syntax_ok; exact Hs|].
    intros s cb c k t E (v & -> & C) Hn enc x Ed (rt & rh & EA). injection E as <- <- <-.
    destruct (legacy_items L S v cb HL Hs C Hn) as [I1 I2].
    cbn [btreeset_legacy lg_from_der]. unfold btreeset_from_der. rewrite EA. cbn [bind any_header any_data].
    rewrite assert_tag_same, assert_constructed_true. cbn [bind]. rewrite I2. reflexivity.
Qed.

Lemma set_insert_member {T} (cmp : T -> T -> comparison) x l z :
  total_order cmp -> z = x \/ (exists y, In y l /\ cmp z y = Eq) -> exists y, In y (set_insert cmp x l) /\ cmp z y = Eq.
Proof.
  intros (An & Tr & Eq0).
  assert (Refl : forall a, cmp a a = Eq) by (intros a; specialize (An a a); destruct (cmp a a); [reflexivity|discriminate|discriminate]).
  induction l as [|y l IH]; cbn [set_insert].
  - intros [->|(y & [] & _)]. exists x. split; [left; reflexivity|apply Refl].
  - destruct (cmp x y) eqn:C; intros H.
    + destruct H as [->|(w & [<-|Hw] & E)]; [exists x; split; [left; reflexivity|apply Refl]| |exists w; split; [right; exact Hw|exact E]].
      exists x. split; [left; reflexivity|]. rewrite (Eq0 z y x E), An, C. reflexivity.
    + destruct H as [->|(w & Hw & E)]; [exists x; split; [left; reflexivity|apply Refl]|exists w; split; [right; exact Hw|exact E]].
    + destruct H as [H|(w & [<-|Hw] & E)].
      * destruct IH as (w & Hw & E); [left; exact H|]. exists w. split; [right; exact Hw|exact E].
      * exists y. split; [left; reflexivity|exact E].
      * destruct IH as (w' & Hw' & E'); [right; exists w; auto|]. exists w'. split; [right; exact Hw'|exact E'].
Qed.
Lemma set_of_list_members {T} (cmp : T -> T -> comparison) vs :
  total_order cmp -> (forall y, In y (set_of_list cmp vs) -> In y vs)
  /\ (forall x, In x vs -> exists y, In y (set_of_list cmp vs) /\ cmp x y = Eq).
Proof.
  intros O. unfold set_of_list.
  assert (G : forall l acc,
    (forall y, In y (fold_left (fun s x => set_insert cmp x s) l acc) -> In y l \/ In y acc)
    /\ (forall x, In x l \/ (exists y, In y acc /\ cmp x y = Eq) ->
         exists y, In y (fold_left (fun s x => set_insert cmp x s) l acc) /\ cmp x y = Eq)).
  { induction l as [|a l IH]; intros acc; cbn [fold_left].
    - split; [auto|]. intros x [[]|H]. exact H.
    - destruct (IH (set_insert cmp a acc)) as [I1 I2]. split.
      + intros y Hy. destruct (I1 y Hy) as [H|H]; [left; right; exact H|]. apply set_insert_in in H as [->|H]; [left; left; reflexivity|auto].
      + intros x [[<-|H]|H]; apply I2; [right|left; exact H|right]; apply set_insert_member; auto. }
  destruct (G vs []) as [G1 G2]. split.
  - intros y Hy. destruct (G1 y Hy) as [H|[]]. exact H.
  - intros x Hx. apply G2. left. exact Hx.
Qed.

Theorem C42_any_order {A} (cmp : A -> A -> comparison) (t : ty A) (vs : list A) (es : list bytes) (idb lenb : bytes) :
  let enc := idb ++ lenb ++ concat es in
  wf t -> total_order cmp -> Forall2 (encodes (syntax_of t)) vs es ->
  ident_shortest Universal true 17 idb -> length_shortest (Definite (blen (concat es))) lenb -> blen enc < 2 ^ 24 ->
  exists s, ascending cmp s /\ (forall y, In y s -> In y vs) /\ (forall x, In x vs -> exists y, In y s /\ cmp x y = Eq)
    /\ reads_everywhere (TBTreeSet cmp t) enc s.
Proof.
  intros enc Hwf O F I1 L1 Hn. exists (set_of_list cmp vs).
  split; [apply (set_of_list_facts cmp (fun _ => True) vs O); apply Forall_forall; intros; exact I|].
  destruct (set_of_list_members cmp vs O) as [M1 M2]. split; [exact M1|]. split; [exact M2|].
  destruct (types_sound t Hwf) as (S & P & W & L & _).
  assert (E : encodes (collected_syntax cmp (syntax_of t)) (set_of_list cmp vs) enc).
  { exists Universal, true, 17, (concat es), idb, lenb. split; [reflexivity|]. split; [|auto].
    exists vs. split; [reflexivity|]. clear - F. induction F; cbn [concat]; constructor; assumption. }
  intros x Hx. destruct (parser_reads _ _ _ enc x (collected_parser_sound cmp _ _ P S) (collected_syntax_ok cmp _ S) E Hn Hx) as [P1 P2].
  split; [exact P1|]. split; [exact P2|]. intros HL.
  exact (legacy_reads _ _ _ enc x (collected_legacy_sound cmp _ _ (L HL) S) (collected_syntax_ok cmp _ S) E Hn Hx).
Qed.
Print Assumptions C42_any_order.

(** Sets in order, and one that is not; texts whose UTF-8 form grows; times. *)
Example C42_order_case :
  let t := TBTreeSet Z.compare (TBase (BInt 2)) in
  let u := TBTreeSet datetime_cmp (TBase BUtcTime) in
  to_vec (wr_der (writer_of t) [-2; -1; 128]%Z) = Ok [0x31; 10; 2; 1; 0xfe; 2; 1; 0xff; 2; 2; 0; 0x80]
  /\ to_vec (wr_der (writer_of t) [-300; -1]%Z) = Ok [0x31; 7; 2; 2; 0xfe; 0xd4; 2; 1; 0xff]
  /\ chain signed_in_order [-2; -1; 128]%Z /\ ~ chain signed_in_order [-300; -1]%Z
  /\ ps_parse_der (parser_of t) [0x31; 9; 2; 1; 3; 2; 1; 0xff; 2; 1; 3] = Ok ([], [-1; 3]%Z)
  /\ ascending datetime_cmp [mk_datetime 24 2 28 12 0 0 None TzZ; mk_datetime 24 2 29 0 0 0 None TzZ]
  /\ to_vec (wr_der (writer_of u) [mk_datetime 24 2 28 12 0 0 None TzZ; mk_datetime 24 2 29 0 0 0 None TzZ])
     = Ok [0x31; 30; 23; 13; 50; 52; 48; 50; 50; 56; 49; 50; 48; 48; 48; 48; 90; 23; 13; 50; 52; 48; 50; 50; 57; 48; 48; 48; 48; 48; 48; 90].
Proof.
  cbv zeta. split; [vm_compute; reflexivity|]. split; [vm_compute; reflexivity|].
  assert (F : forall k v, (1 <= k)%nat -> (- 128 <= v < 128)%Z -> fits_octets k v).
  { intros k v Hk Hv. unfold fits_octets. assert (2 ^ 7 <= 2 ^ (8 * Z.of_nat k - 1))%Z by (apply Z.pow_le_mono_r; lia). lia. }
  split.
  - split; [right; right; split; [lia|]|split; [right; left; exists 1%nat|auto]].
    + intros k Hk. split; intros _; apply F; lia.
    + split; [lia|]. split; [apply F; lia|]. unfold fits_octets. cbn. lia.
    + split; exact I.
  - split; [|split; [vm_compute; reflexivity|split; [repeat constructor|vm_compute; reflexivity]]].
    intros [[H|[(k & Hk & _ & H)|[_ H]]] _]; [lia|apply H, F; lia|].
    pose proof (proj2 (H 1%nat (le_n _)) (F 1%nat (-1)%Z (le_n _) ltac:(lia))) as G. unfold fits_octets in G. cbn in G. lia.
Qed.
