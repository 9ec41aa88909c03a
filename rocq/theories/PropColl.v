(** Properties of [HashSet], [AnySet], of the conversions of [Sequence], [Set] and [Any], and of [to_der_len]. *)
From Coq Require Import Permutation.
From Verif Require Import Base MHeader MEncode SHeader PArith PHeader PEncode MBer SBer PBer PIter PCodec PropHeader.
From Verif Require Import MInt SInt PInt MSeg SSeg MOid MText SText PropText.
From Verif Require Import MSpan SSpan PSpan PropSpan MColl.
From Verif Require Import MCont SCont PCont SBase PBase PTypes PropCont PropTag PropItems PropRaw.

(** ** C75: HashSet *)

(** [s] is the set of the elements of [l]. *)
Definition elements_of {T} (s l : list T) : Prop := NoDup s /\ forall x, In x s <-> In x l.
(** [T: Eq]. *)
Definition decides {T} (same : T -> T -> bool) : Prop := forall x y, same x y = true <-> x = y.

Lemma hash_insert_in {T} (same : T -> T -> bool) s x :
  decides same -> NoDup s -> NoDup (hash_insert same s x) /\ forall y, In y (hash_insert same s x) <-> In y s \/ y = x.
Proof.
  intros D N. unfold hash_insert. destruct (existsb (same x) s) eqn:E.
  - apply existsb_exists in E as (z & Hz & E). apply D in E as <-. split; [exact N|]. intros y. split; [auto|intros [H| ->]; auto].
  - assert (X : ~ In x s).
    { intros H. assert (existsb (same x) s = true) by (apply existsb_exists; exists x; split; [exact H|apply D; reflexivity]). congruence. }
    split.
    + clear E. induction N as [|z s Hz N IH]; cbn [app]; [constructor; [intros []|constructor]|].
      constructor; [|apply IH; intros H; apply X; right; exact H].
      intros H. apply in_app_or in H as [H|[->|[]]]; [contradiction|]. apply X. left. reflexivity.
    + intros y. rewrite in_app_iff. cbn [In]. intuition congruence.
Qed.

Lemma hash_collect_elements {T} (same : T -> T -> bool) l : decides same -> elements_of (hash_collect same l) l.
Proof.
  intros D. unfold hash_collect.
  assert (G : forall l s, NoDup s -> NoDup (fold_left (hash_insert same) l s)
            /\ forall y, In y (fold_left (hash_insert same) l s) <-> In y s \/ In y l).
  { clear l. induction l as [|x l IH]; intros s N; cbn [fold_left]; [split; [exact N|cbn; tauto]|].
    destruct (hash_insert_in same s x D N) as [N' H]. destruct (IH _ N') as [N'' H'']. split; [exact N''|].
    intros y. rewrite H'', H. cbn [In]. intuition congruence. }
  destruct (G l [] (NoDup_nil _)) as [N H]. split; [exact N|]. intros y. rewrite H. cbn. tauto.
Qed.

(** Elements no two of which are merged. *)
Definition apart {T} (same : T -> T -> bool) : list T -> Prop := ForallOrdPairs (fun x y => same y x = false).

Lemma hash_collect_apart {T} (same : T -> T -> bool) l : apart same l -> hash_collect same l = l.
Proof.
  intros A. unfold hash_collect.
  assert (G : forall s, (forall x y, In x s -> In y l -> same y x = false) -> fold_left (hash_insert same) l s = s ++ l).
  { induction A as [|x l Hx A IH]; intros s Hs; cbn [fold_left]; [rewrite app_nil_r; reflexivity|].
    unfold hash_insert at 2. replace (existsb (same x) s) with false.
    - rewrite IH; [rewrite <- app_assoc; reflexivity|]. intros a y Ha Hy. apply in_app_or in Ha as [Ha|[<-|[]]].
      + apply Hs; [exact Ha|right; exact Hy].
      + rewrite Forall_forall in Hx. apply Hx. exact Hy.
    - symmetry. apply Bool.not_true_iff_false. intros E. apply existsb_exists in E as (z & Hz & E).
      rewrite (Hs z x Hz (or_introl eq_refl)) in E. discriminate. }
  apply G. intros x y [].
Qed.

Lemma distinct_apart {T} (same : T -> T -> bool) l : decides same -> NoDup l -> apart same l.
Proof.
  intros D. induction 1 as [|x l Hx N IH]; [constructor|]. constructor; [|exact IH]. apply Forall_forall. intros y Hy.
  apply Bool.not_true_iff_false. intros E. apply D in E as ->. contradiction.
Qed.

(** [hs] is the result [so] with the set of the elements in place of the list. *)
Definition mirrors {T} (hs so : res (bytes * list T)) : Prop :=
  match so with
  | Ok (rem, vs) => exists s, hs = Ok (rem, s) /\ elements_of s vs
  | Err e => hs = Err e
  | Incomplete n => hs = Incomplete n
  | Panic => hs = Panic
  end.

Lemma mirrors_map {T} (same : T -> T -> bool) (r : res (bytes * list T)) :
  decides same -> mirrors (let* (rem, v) := r in Ok (rem, hash_collect same v)) r.
Proof. intros D. destruct r as [[rem v]| | |]; cbn; auto. eexists. split; [reflexivity|apply hash_collect_elements; exact D]. Qed.

(** A [HashSet<T>] reads what [SetOf<T>] reads, and keeps one of each of the elements; [from_der] also wants the
    constructed form. *)
Theorem C75_reads {T} (same : T -> T -> bool) (P : parser T) (L : legacy T) (i : bytes) :
  decides same ->
  mirrors (ps_parse_ber (hashset_parser same P) i) (ps_parse_ber (setof_parser P) i)
  /\ mirrors (ps_parse_der (hashset_parser same P) i) (ps_parse_der (setof_parser P) i)
  /\ mirrors (lg_from_ber (hashset_legacy same L) i) (lg_from_ber (setof_legacy L) i)
  /\ (consuming (lg_from_der L) -> bytes_ok i -> forall rem,
      (forall s, lg_from_der (hashset_legacy same L) i = Ok (rem, s) ->
         exists c content vs, starts_with_object c true 17 content i rem /\ reads_all (lg_from_der L) content vs /\ elements_of s vs)
      /\ (forall c content vs, starts_with_object c true 17 content i rem -> reads_all (lg_from_der L) content vs ->
         exists s, lg_from_der (hashset_legacy same L) i = Ok (rem, s) /\ elements_of s vs)).
Proof.
  intros D. split; [|split; [|split]].
  - cbn [hashset_parser setof_parser default_parser codec_parser ps_parse_ber]. unfold parse_ber. cbn [accept_tag ber_content].
    destruct (header_parse_ber i) as [[r h]| | |]; cbn [bind mirrors]; try reflexivity.
    destruct (is_tag TagSet (h_tag h)); [|cbn [mirrors]; reflexivity].
    destruct (ber_object_content h r MAX_RECURSION) as [[r2 d]| | |]; cbn [bind mirrors]; try reflexivity.
    unfold hashset_ber_content, setof_ber_content. destruct (assert_constructed h); cbn [bind mirrors]; try reflexivity.
    destruct (collect_ber P d) as [[r3 v]| | |]; cbn [bind mirrors]; try reflexivity.
    eexists. split; [reflexivity|apply hash_collect_elements; exact D].
  - cbn [hashset_parser setof_parser default_parser codec_parser ps_parse_der]. unfold parse_der. cbn [accept_tag der_content].
    destruct (header_parse_der i) as [[r h]| | |]; cbn [bind mirrors]; try reflexivity.
    destruct (h_length h) as [n|]; [|cbn [mirrors]; reflexivity].
    destruct (is_tag TagSet (h_tag h)); [|cbn [mirrors]; reflexivity].
    destruct (take n r) as [[r2 d]| | |]; cbn [bind mirrors]; try reflexivity.
    unfold hashset_der_content, setof_der_content. destruct (assert_constructed h); cbn [bind mirrors]; try reflexivity.
    destruct (collect_der P d) as [[r3 v]| | |]; cbn [bind mirrors]; try reflexivity.
    eexists. split; [reflexivity|apply hash_collect_elements; exact D].
  - cbn [hashset_legacy setof_legacy lg_from_ber]. unfold blanket_from_ber.
    destruct (parse_ber_any i) as [[r a]| | |]; cbn [bind mirrors]; try reflexivity.
    unfold hashset_try_from, setof_try_from. destruct (assert_tag _ _); cbn [bind mirrors]; try reflexivity.
    destruct (assert_constructed _); cbn [bind mirrors]; try reflexivity.
    destruct (seq_items _ _) as [v| | |]; cbn [bind mirrors]; try reflexivity.
    eexists. split; [reflexivity|apply hash_collect_elements; exact D].
  - intros CD Hi rem. cbn [hashset_legacy lg_from_der]. unfold hashset_from_der. rewrite from_der_any_eq. split.
    + intros s E. apply bind_ok in E as ([r a] & E & F). apply bind_ok in F as ([] & Ta & F). apply bind_ok in F as ([] & K & F).
      apply bind_ok in F as (w & F & E'). injection E' as -> <-. apply assert_tag_ok in Ta. apply assert_constructed_ok in K.
      destruct (any_der_object _ _ _ Hi E) as (O & Hd & _). rewrite Ta, K in O.
      apply seq_items_reads in F; [|exact CD|exact Hd]. exists (h_class (any_header a)), (any_data a), w. split; [exact O|]. split; [exact F|].
      apply hash_collect_elements. exact D.
    + intros c d w O Rw. destruct (der_object_any _ _ _ _ _ _ Hi O) as (h & E & Cl & K & Ta).
      destruct (any_der_object _ _ _ Hi E) as (_ & Hd & _). cbn [any_data] in Hd. exists (hash_collect same w).
      rewrite E. cbn [bind any_header any_data]. apply assert_tag_ok in Ta. apply assert_constructed_ok in K.
      unfold TagSet. rewrite Ta, K. cbn [bind]. rewrite (proj2 (seq_items_reads _ d w CD Hd) Rw). split; [reflexivity|].
      apply hash_collect_elements. exact D.
Qed.
Print Assumptions C75_reads.

(** The same under an IMPLICIT tag. *)
Theorem C75_implicit {T} (same : T -> T -> bool) (P : parser T) (L : legacy T) (c : class) (n : N) (i : bytes) :
  decides same ->
  mirrors (ps_parse_ber (implicit_parser c n (hashset_parser same P)) i) (ps_parse_ber (implicit_parser c n (setof_parser P)) i)
  /\ mirrors (ps_parse_der (implicit_parser c n (hashset_parser same P)) i) (ps_parse_der (implicit_parser c n (setof_parser P)) i)
  /\ mirrors (lg_from_ber (implicit_legacy c n (hashset_legacy same L)) i) (lg_from_ber (implicit_legacy c n (setof_legacy L)) i)
  /\ mirrors (lg_from_der (implicit_legacy c n (hashset_legacy same L)) i) (lg_from_der (implicit_legacy c n (setof_legacy L)) i).
Proof.
  intros D.
  assert (C : forall h d, mirrors (hashset_ber_content same P h d) (setof_ber_content P h d)
                       /\ mirrors (hashset_der_content same P h d) (setof_der_content P h d)).
  { intros h d. unfold hashset_ber_content, setof_ber_content, hashset_der_content, setof_der_content.
    destruct (assert_constructed h); cbn [bind mirrors]; auto.
    split; [destruct (collect_ber P d) as [[r v]| | |] | destruct (collect_der P d) as [[r v]| | |]]; cbn [bind mirrors]; try reflexivity;
      (eexists; split; [reflexivity|apply hash_collect_elements; exact D]). }
  assert (A : forall a, match implicit_try_from c n (setof_legacy L) a with
                        | Ok vs => exists s, implicit_try_from c n (hashset_legacy same L) a = Ok s /\ elements_of s vs
                        | Err e => implicit_try_from c n (hashset_legacy same L) a = Err e
                        | Incomplete m => implicit_try_from c n (hashset_legacy same L) a = Incomplete m
                        | Panic => implicit_try_from c n (hashset_legacy same L) a = Panic end).
  { intros a. unfold implicit_try_from. cbn [hashset_legacy setof_legacy lg_try_from lg_tag]. destruct (assert_tag _ n); cbn [bind]; try reflexivity.
    destruct (check_class _ _); cbn [bind]; try reflexivity. unfold hashset_try_from, setof_try_from. cbn [any_header any_data].
    destruct (assert_tag _ _); cbn [bind]; try reflexivity. destruct (assert_constructed _); cbn [bind]; try reflexivity.
    destruct (seq_items _ _); cbn [bind]; try reflexivity. eexists. split; [reflexivity|apply hash_collect_elements; exact D]. }
  split; [|split; [|split]].
  - cbn [implicit_parser hashset_parser setof_parser default_parser codec_parser ps_parse_ber ps_ber_content]. unfold parse_ber. cbn [accept_tag ber_content].
    destruct (header_parse_ber i) as [[r h]| | |]; cbn [bind mirrors]; try reflexivity. destruct (is_tag n (h_tag h)); [|reflexivity].
    destruct (ber_object_content h r MAX_RECURSION) as [[r2 d]| | |]; cbn [bind mirrors]; try reflexivity.
    unfold implicit_content. destruct (check_class h c); cbn [bind mirrors]; try reflexivity.
    destruct (C h d) as [H _]. destruct (setof_ber_content P h d) as [[r3 v]| | |]; cbn [mirrors bind] in *; [|rewrite H; reflexivity..].
    destruct H as (s & -> & H). exists s. split; [reflexivity|exact H].
  - cbn [implicit_parser hashset_parser setof_parser default_parser codec_parser ps_parse_der ps_der_content]. unfold parse_der. cbn [accept_tag der_content].
    destruct (header_parse_der i) as [[r h]| | |]; cbn [bind mirrors]; try reflexivity. destruct (h_length h) as [l|]; [|reflexivity].
    destruct (is_tag n (h_tag h)); [|reflexivity].
    destruct (take l r) as [[r2 d]| | |]; cbn [bind mirrors]; try reflexivity.
    unfold implicit_content. destruct (check_class h c); cbn [bind mirrors]; try reflexivity.
    destruct (C h d) as [_ H]. destruct (setof_der_content P h d) as [[r3 v]| | |]; cbn [mirrors bind] in *; [|rewrite H; reflexivity..].
    destruct H as (s & -> & H). exists s. split; [reflexivity|exact H].
  - cbn [implicit_legacy lg_from_ber]. unfold blanket_from_ber. destruct (parse_ber_any i) as [[r a]| | |]; cbn [bind mirrors]; try reflexivity.
    specialize (A a). destruct (implicit_try_from c n (setof_legacy L) a); cbn [bind mirrors]; [|rewrite A; reflexivity..].
    destruct A as (s & -> & H). exists s. split; [reflexivity|exact H].
  - cbn [implicit_legacy lg_from_der]. unfold implicit_from_der. destruct (from_der any_codec i) as [[r a]| | |]; cbn [bind mirrors]; try reflexivity.
    specialize (A a). destruct (implicit_try_from c n (setof_legacy L) a); cbn [bind mirrors]; [|rewrite A; reflexivity..].
    destruct A as (s & -> & H). exists s. split; [reflexivity|exact H].
Qed.
Print Assumptions C75_implicit.
Example C75_implicit_case :
  let t := TBase (BInt 4) in let i := [0xa5; 9; 2; 1; 7; 2; 1; 8; 2; 1; 7] in
  lg_from_der (implicit_legacy ContextSpecific 5 (hashset_legacy Z.eqb (legacy_of t))) i = Ok ([], [7; 8]%Z)
  /\ ps_parse_der (implicit_parser ContextSpecific 5 (hashset_parser Z.eqb (parser_of t))) i = Ok ([], [7; 8]%Z)
  /\ lg_from_der (implicit_legacy ContextSpecific 5 (setof_legacy (legacy_of t))) i = Ok ([], [7; 8; 7]%Z).
Proof. split; [vm_compute; reflexivity|]. split; vm_compute; reflexivity. Qed.

(** In whatever order a set of values is written, it reads back as the same set. *)
Theorem C75_roundtrip {A} (t : ty A) (same : A -> A -> bool) (vs : list A) (n : N) :
  wf t -> decides same -> NoDup vs -> Forall (sx_valid (syntax_of t)) vs ->
  total_len (wr_der (hashset_writer (writer_of t)) vs) = Definite n -> n < 2 ^ 24 ->
  exists enc, encodes (list_syntax 17 (syntax_of t)) vs enc /\ blen enc = n
    /\ to_vec (wr_ber (hashset_writer (writer_of t)) vs) = Ok enc /\ to_vec (wr_der (hashset_writer (writer_of t)) vs) = Ok enc
    /\ forall x, bytes_ok x ->
       ps_parse_ber (hashset_parser same (parser_of t)) (enc ++ x) = Ok (x, vs)
       /\ ps_parse_der (hashset_parser same (parser_of t)) (enc ++ x) = Ok (x, vs)
       /\ (has_legacy t -> lg_from_ber (hashset_legacy same (legacy_of t)) (enc ++ x) = Ok (x, vs)
                           /\ lg_from_der (hashset_legacy same (legacy_of t)) (enc ++ x) = Ok (x, vs)).
Proof.
  intros Hwf D Nd Hv L Hn.
  destruct (types_sound t Hwf) as (S & P & W & Lg & _).
  assert (W' : writer_sound (hashset_writer (writer_of t)) (list_syntax 17 (syntax_of t))).
  { destruct (setof_writer_sound _ _ W S) as [A1 A2]. split; [|exact A2]. intros v cb c k tg E C Hc.
    injection E as <- <- <-. destruct (A1 v cb Universal true 17 eq_refl C Hc) as (B1 & B2 & _). auto. }
  pose proof (list_syntax_ok 17 (syntax_of t) ltac:(lia) S) as S'.
  destruct (writer_total _ _ vs n W' S' Hv L Hn) as (enc & E & En).
  assert (Hn' : blen enc < 2 ^ 24) by lia.
  destruct (writer_encodes _ _ vs enc W' S' E Hn') as [[W1 _] [W2 _]].
  exists enc. split; [exact E|]. split; [exact En|]. unfold to_vec. rewrite W1, W2. split; [reflexivity|]. split; [reflexivity|].
  pose proof (hash_collect_apart same vs (distinct_apart same vs D Nd)) as HC.
  assert (PS : parser_sound (hashset_parser same (parser_of t)) (mk_syntax (fun v => Forall (sx_valid (syntax_of t)) v) (fun _ => (Universal, true, 17)) (fun v cb => v = vs /\ items_content (syntax_of t) v cb))).
  { split; [apply default_regular|]. intros v cb c k tg Ei [-> C] Hc. injection Ei as <- <- <-. split; [reflexivity|]. intros rt rh h.
    destruct (setof_contents (parser_of t) (syntax_of t) vs cb h P S C Hc eq_refl) as [H1 H2].
    unfold setof_ber_content, setof_der_content in H1, H2. apply bind_ok in H1 as ([] & K & H1). apply bind_ok in H2 as ([] & _ & H2).
    cbn [hashset_parser default_parser codec_parser ps_ber_content ps_der_content ber_content der_content].
    unfold hashset_ber_content, hashset_der_content. rewrite K. cbn [bind]. rewrite H1, H2. cbn [bind]. rewrite HC.
    split; exists []; reflexivity. }
  assert (SO : syntax_ok (mk_syntax (fun v => Forall (sx_valid (syntax_of t)) v) (fun _ => (Universal, true, 17)) (fun v cb => v = vs /\ items_content (syntax_of t) v cb))).
  { intros v cb c k tg Ei [-> C]. exact (S' vs cb c k tg Ei C). }
  assert (E' : encodes (mk_syntax (fun v => Forall (sx_valid (syntax_of t)) v) (fun _ => (Universal, true, 17)) (fun v cb => v = vs /\ items_content (syntax_of t) v cb)) vs enc).
  { destruct E as (c & k & tg & cb & idb & lenb & E1 & E2 & E3). exists c, k, tg, cb, idb, lenb. cbn [sx_ident sx_content list_syntax] in *. auto. }
  intros x Hx. destruct (parser_reads _ _ vs enc x PS SO E' Hn' Hx) as [P1 P2]. split; [exact P1|]. split; [exact P2|].
  intros HL. specialize (Lg HL).
  destruct (legacy_reads _ _ vs enc x (setof_legacy_sound _ _ Lg S) S' E Hn' Hx) as [L1 L2]. split.
  - cbn [hashset_legacy setof_legacy lg_from_ber] in *. unfold blanket_from_ber in *.
    apply bind_ok in L1 as ([r a] & EA & F). rewrite EA. cbn [bind]. apply bind_ok in F as (v & F & G). injection G as -> ->.
    unfold setof_try_from in F. apply bind_ok in F as ([] & F1 & F). apply bind_ok in F as ([] & F2 & F).
    unfold hashset_try_from. rewrite F1, F2. cbn [bind]. rewrite F. cbn [bind]. rewrite HC. reflexivity.
  - cbn [hashset_legacy setof_legacy lg_from_der] in *. unfold hashset_from_der, setof_from_der in *.
    apply bind_ok in L2 as ([r a] & EA & F). rewrite EA. cbn [bind]. apply bind_ok in F as ([] & F1 & F). rewrite F1. cbn [bind].
    apply bind_ok in F as (v & F & G). injection G as -> ->.
    assert (K : assert_constructed (any_header a) = Ok tt).
    { destruct (encodes_object _ vs enc S' E ltac:(lia)) as (c & k & tg & cb & Ei & I & Ht & Hd & O). injection Ei as <- <- <-.
      destruct (object_from_der_any _ _ _ _ _ x O ltac:(lia) Hd Hx) as (rt & rh & EB).
      rewrite EB in EA. injection EA as <-. reflexivity. }
    rewrite K. cbn [bind]. rewrite F. cbn [bind]. rewrite HC. reflexivity.
Qed.
Print Assumptions C75_roundtrip.

(** The announced length does not depend on the order either. *)
Lemma length_sum_permutation ls ks : Permutation ls ks -> length_sum ls = length_sum ks.
Proof.
  induction 1 as [|l ls ks _ IH|l k ls|a b c _ IH1 _ IH2]; [reflexivity| | |congruence]; rewrite !length_sum_cons.
  - rewrite IH. reflexivity.
  - destruct l, k, (length_sum ls); cbn [length_add]; try reflexivity. f_equal. lia.
Qed.
Theorem C75_length {T} (W : writer T) (vs ws : list T) :
  Permutation vs ws ->
  total_len (wr_ber (hashset_writer W) vs) = total_len (wr_ber (hashset_writer W) ws)
  /\ total_len (wr_der (hashset_writer W) vs) = total_len (wr_der (hashset_writer W) ws).
Proof.
  intros P. assert (G : forall f : T -> tober, length_constructed_items (map f vs) = length_constructed_items (map f ws)).
  { intros f. unfold length_constructed_items. apply length_sum_permutation. apply Permutation_map. apply Permutation_map. exact P. }
  unfold total_len. cbn [hashset_writer wr_ber wr_der items_tober tb_tag tb_content_len]. rewrite !G. auto.
Qed.
Print Assumptions C75_length.

Example C75_case :
  let t := TBase (BUint 1) in let R := hashset_parser Z.eqb (parser_of t) in
  to_vec (wr_der (hashset_writer (writer_of t)) [9; 7; 200]%Z) = Ok [49; 10; 2; 1; 9; 2; 1; 7; 2; 2; 0; 200]
  /\ ps_parse_der R [49; 10; 2; 1; 9; 2; 1; 7; 2; 2; 0; 200; 1] = Ok ([1], [9; 7; 200]%Z)
  /\ ps_parse_der R [49; 9; 2; 1; 9; 2; 1; 7; 2; 1; 9] = Ok ([], [9; 7]%Z)
  /\ ps_parse_der (setof_parser (parser_of t)) [49; 9; 2; 1; 9; 2; 1; 7; 2; 1; 9] = Ok ([], [9; 7; 9]%Z)
  /\ lg_from_der (hashset_legacy Z.eqb (legacy_of t)) [17; 3; 2; 1; 9] = Err EConstructExpected
  /\ lg_from_der (setof_legacy (legacy_of t)) [17; 3; 2; 1; 9] = Ok ([], [9]%Z)
  /\ (forall x y : Z, Z.eqb x y = true <-> x = y).
Proof. cbn zeta. do 6 (split; [vm_compute; reflexivity|]). apply Z.eqb_eq. Qed.

(** The DER encoding of a set depends on the order in which it is iterated over, that is on the hasher; and the
    elements need not be in the order X.690 11.6 asks for. *)
Theorem C75_der_order_refuted :
  let t := TBase (BUint 1) in
  exists vs ws a b, Permutation vs ws
    /\ to_vec (wr_der (hashset_writer (writer_of t)) vs) = Ok a /\ to_vec (wr_der (hashset_writer (writer_of t)) ws) = Ok b /\ a <> b
    /\ ps_parse_der (hashset_parser Z.eqb (parser_of t)) a = Ok ([], vs) /\ a = [49; 6; 2; 1; 9; 2; 1; 7].
Proof.
  exists [9; 7]%Z, [7; 9]%Z. do 2 eexists. split; [apply perm_swap|]. split; [vm_compute; reflexivity|]. split; [vm_compute; reflexivity|].
  split; [discriminate|]. split; [vm_compute; reflexivity|reflexivity].
Qed.
Print Assumptions C75_der_order_refuted.

(** ** C76: AnySet and HashSet<Any> *)

(** Which elements a [HashSet<Any>] merges: only equal ones, and equal ones with equal hashes. *)
Definition any_set_merges (same : sany -> sany -> bool) : Prop :=
  (forall a b, same a b = true -> sany_eqb a b = true)
  /\ (forall a b, sany_eqb a b = true -> sany_hash_input a = sany_hash_input b -> same a b = true).

Lemma input_eqb_eq a b : input_eqb a b = true <-> a = b.
Proof.
  unfold input_eqb, bytes_eqb. destruct a as [d s e], b as [d' s' e']. cbn [in_data in_start in_end].
  destruct (list_eq_dec N.eq_dec d d') as [->|Nd]; cbn [andb]; [|split; [discriminate|congruence]].
  destruct (N.eqb_spec s s') as [->|Ns]; cbn [andb]; [|split; [discriminate|congruence]].
  destruct (N.eqb_spec e e') as [->|Ne]; split; congruence || discriminate.
Qed.

Lemma sbind_ok {A B} (r : sres A) (k : A -> sres B) b : sbind r k = SOk b -> exists a, r = SOk a /\ k a = SOk b.
Proof. destruct r; cbn; try discriminate. eauto. Qed.

Lemma tag_loop_moves whole i0 : small whole -> forall fuel i c count r t n, located whole i ->
  s_tag_loop fuel i0 i c count = SOk (r, t, n) -> in_start i <= in_start r /\ located whole r.
Proof.
  intros W. induction fuel as [|fuel IH]; intros i c count r t n L E; cbn [s_tag_loop] in E; [discriminate|].
  destruct (s_be_u8 i) as [[q b]| | |] eqn:Eq; try discriminate.
  destruct (sim_prop _ _ _ _ _ _ (be_u8_sim whole i W L) Eq) as [Sq _]. cbn [fst] in Sq. destruct Sq as (Lq & _ & Sq).
  destruct (5 <? count); [discriminate|]. cbv zeta in E. destruct (N.land b 128 =? 0).
  - injection E as <- _ _. split; [exact Sq|exact Lq].
  - destruct (IH _ _ _ _ _ _ Lq E) as [H1 H2]. split; [lia|exact H2].
Qed.

(** A header has at least one octet. *)
Lemma header_moves whole i r h : small whole -> located whole i -> s_parse_header i = SOk (r, h) ->
  suffix whole i r /\ in_start i < in_start r.
Proof.
  intros W L E. pose proof (sim_prop _ _ _ _ _ _ (parse_header_sim whole i W L) E) as [_ S]. split; [exact S|].
  unfold s_parse_header in E. apply sbind_ok in E as ([r1 b] & E1 & E).
  destruct (sim_prop _ _ _ _ _ _ (be_u8_sim whole i W L) E1) as [S1 B1]. cbn [fst snd] in *.
  destruct (class_try_from (N.shiftr b 6)) as [c|]; [|discriminate]. cbv zeta in E. apply sbind_ok in E as ([[r2 t] n] & E2 & E).
  assert (S2 : in_start r1 <= in_start r2 /\ located whole r2).
  { destruct (N.land b 31 =? 31); [|injection E2 as <- <- <-; split; [lia|apply S1]].
    exact (tag_loop_moves whole i W _ _ _ _ _ _ _ (proj1 S1) E2). }
  destruct (blen (in_data i) <? n); [discriminate|]. apply sbind_ok in E as ([r3 l] & E3 & E).
  pose proof (sim_prop _ _ _ _ _ _ (parse_length_sim whole i r2 _ W L (proj2 S2)) E3) as S3. cbn [fst] in S3.
  apply sbind_ok in E as (m & _ & E). apply sbind_ok in E as (raw & _ & E). injection E as <- _. destruct S3 as (_ & _ & S3). lia.
Qed.

(** The content of an object lies between the beginning of the object and what follows it. *)
Lemma any_moves whole p i rem a : small whole -> any_parser p -> located whole i -> p i = SOk (rem, a) ->
  suffix whole i rem /\ in_start i < in_start (sa_data a) /\ in_start (sa_data a) <= in_start rem.
Proof.
  intros W [->| ->] L E.
  - unfold s_parse_ber in E. apply sbind_ok in E as ([r h] & E1 & E). cbn [sp_accept s_any_parser] in E.
    destruct (header_moves whole i r h W L E1) as [S M]. apply sbind_ok in E as ([r2 d] & E2 & E).
    pose proof (sim_prop _ _ _ _ _ _ (ber_object_content_sim whole h r _ W (proj1 S)) E2) as (C1 & C2 & C3 & C4). cbn [fst snd] in *.
    apply sbind_ok in E as ([r3 x] & E3 & E). injection E as -> ->. split; [eapply suffix_trans; eassumption|].
    assert (X : in_start (sa_data a) = in_start d).
    { cbn [sp_ber s_any_parser] in E3. unfold s_any_ber_content in E3. apply sbind_ok in E3 as ([r4 y] & E3 & E). injection E as <- <-. cbn [sa_data].
      destruct (h_length (sh_fields h)); apply (sim_prop _ _ _ _ _ _ (take_sim whole d _ W C2)) in E3 as (_ & _ & T & _); exact T. }
    rewrite X, C3. destruct C1 as (_ & _ & C1). lia.
  - unfold s_parse_der in E. apply sbind_ok in E as ([r h] & E1 & E). cbn [sp_accept s_any_parser] in E.
    unfold s_parse_header_der in E1. apply sbind_ok in E1 as ([r' h'] & E1 & E1'). destruct (is_definite _); [|discriminate]. injection E1' as <- <-.
    destruct (header_moves whole i r' h' W L E1) as [S M]. destruct (h_length (sh_fields h')) as [l|] eqn:El; [|discriminate].
    apply sbind_ok in E as ([r2 d] & E2 & E).
    pose proof (sim_prop _ _ _ _ _ _ (take_sim whole r' l W (proj1 S)) E2) as (C1 & C2 & C3 & C4). cbn [fst snd] in *.
    apply sbind_ok in E as ([r3 x] & E3 & E). injection E as -> ->. split; [eapply suffix_trans; eassumption|].
    assert (X : in_start (sa_data a) = in_start d).
    { cbn [sp_der s_any_parser] in E3. unfold s_any_der_content in E3. apply sbind_ok in E3 as ([r4 y] & E3 & E). injection E as <- <-. cbn [sa_data].
      apply (sim_prop _ _ _ _ _ _ (der_get_content_sim whole h' d W C2)) in E3 as (_ & _ & T & _). exact T. }
    rewrite X, C3. destruct C1 as (_ & _ & C1). lia.
Qed.

Lemma collected_apart whole p same : small whole -> any_parser p -> (forall a b, same a b = true -> sany_eqb a b = true) ->
  forall fuel i rem l, located whole i -> s_collect_loop p (fun a => SOk a) fuel i = SOk (rem, l) ->
  apart same l /\ Forall (fun a => in_start i < in_start (sa_data a)) l.
Proof.
  intros W Hp Hs. induction fuel as [|fuel IH]; intros i rem l L E; cbn [s_collect_loop] in E; [discriminate|].
  destruct (blen (in_data i) =? 0); [injection E as _ <-; split; constructor|].
  apply sbind_ok in E as ([r a] & E1 & E). apply sbind_ok in E as (x & E2 & E). injection E2 as <-.
  apply sbind_ok in E as ([r2 l2] & E3 & E). injection E as _ <-.
  assert (E1' : p i = SOk (r, a)) by (destruct (p i) as [[? ?]| | |]; cbn in E1; congruence).
  destruct (any_moves whole p i r a W Hp L E1') as (S & M1 & M2).
  destruct (IH r r2 l2 (proj1 S) E3) as [A F]. split.
  - constructor; [|exact A]. eapply Forall_impl; [|exact F]. intros b Hb. cbn beta in Hb. apply Bool.not_true_iff_false. intros Sm.
    apply Hs in Sm. unfold sany_eqb in Sm. apply andb_prop in Sm as [_ Sm]. apply input_eqb_eq in Sm. rewrite Sm in Hb. lia.
  - constructor; [exact M1|]. eapply Forall_impl; [|exact F]. intros b Hb. cbn beta in Hb. destruct S as (_ & _ & S). lia.
Qed.

Lemma anyset_tracks same : (forall a b, same a b = true -> sany_eqb a b = true) ->
  tracks (map dataA) (fun _ _ => True) (s_anyset_parser same) (any_items_parser TagSet).
Proof.
  intros Hs. split; [reflexivity|]. split; [reflexivity|]. split; [reflexivity|]. intros whole W h i H L.
  assert (G : forall p q, any_parser p -> (forall j, located whole j -> sim whole dataO (any_item whole j) (p j) (q (in_data j))) ->
    sim whole (map dataA) (fun _ => True) (value (s_anyset_content same p h i)) (value' (any_items_content q (sh_fields h) (in_data i)))).
  { intros p q Hp Hq. unfold s_anyset_content, any_items_content, value, value'.
    destruct (assert_constructed (sh_fields h)); cbn [at_input sbind bind]; try (cbn; auto; fail).
    unfold try_collect.
    pose proof (collect_sim whole dataA (fun _ => True) p q (fun a => SOk a) (fun a => Ok a) W Hq) as C.
    specialize (C ltac:(intros x _; cbn; auto) (S (length (in_data i))) i L).
    destruct (s_collect_loop p (fun a => SOk a) (S (length (in_data i))) i) as [[r l]| | |] eqn:E.
    - pose proof (collected_apart whole p same W Hp Hs _ _ _ _ L E) as [A _].
      destruct (collect_loop q (fun a => Ok a) (S (length (in_data i))) (in_data i)) as [[r' l']| | |]; cbn in C; try contradiction.
      destruct C as [C _]. unfold dataV in C. cbn [fst snd] in C. injection C as -> ->. cbn. rewrite (hash_collect_apart same l A). auto.
    - destruct (collect_loop q (fun a => Ok a) (S (length (in_data i))) (in_data i)) as [[r' l']| | |]; cbn in C; try contradiction; cbn; auto.
    - destruct (collect_loop q (fun a => Ok a) (S (length (in_data i))) (in_data i)) as [[r' l']| | |]; cbn in C; try contradiction; cbn; auto.
    - destruct (collect_loop q (fun a => Ok a) (S (length (in_data i))) (in_data i)) as [[r' l']| | |]; cbn in C; try contradiction; cbn; auto. }
  split.
  - apply (G (s_parse_ber s_any_parser) any_parse_ber); [left; reflexivity|]. intros j Lj. apply any_parse_ber_sim; assumption.
  - apply (G (s_parse_der s_any_parser) any_parse_der); [right; reflexivity|]. intros j Lj. apply any_parse_der_sim; assumption.
Qed.

(** [AnySet]: the set has one element for each object in the content, equal or not, in their order. *)
Theorem C76_anyset (same : sany -> sany -> bool) (whole : bytes) (i : input) :
  any_set_merges same -> blen whole < 2 ^ 64 -> located whole i ->
  forget (dataV (map dataA)) (s_parse_ber (s_anyset_parser same) i) = ps_parse_ber (any_items_parser TagSet) (in_data i)
  /\ forget (dataV (map dataA)) (s_parse_der (s_anyset_parser same) i) = ps_parse_der (any_items_parser TagSet) (in_data i).
Proof.
  intros [Hs _] W L. pose proof (anyset_tracks same Hs) as K. split.
  - eapply sim_forget. exact (parse_ber_sim _ _ _ _ K whole W i L).
  - eapply sim_forget. exact (parse_der_sim _ _ _ _ K whole W i L).
Qed.
Print Assumptions C76_anyset.

(** So the items of an [AnySet] are not unique: two copies of INTEGER 5. *)
Theorem C76_unique_refuted (same : sany -> sany -> bool) :
  any_set_merges same ->
  exists d a b, s_parse_der (s_anyset_parser same) (from_slice d) = SOk (mk_input [] 8 8, [a; b])
    /\ s_parse_ber (s_anyset_parser same) (from_slice d) = SOk (mk_input [] 8 8, [a; b])
    /\ dataA a = dataA b /\ any_data (dataA a) = [5] /\ h_tag (any_header (dataA a)) = 2.
Proof.
  intros [Hs _]. exists [49; 6; 2; 1; 5; 2; 1; 5].
  do 2 eexists. split; [|split].
  - vm_compute. match goal with |- context [same ?x ?y] => destruct (same x y) eqn:E end; [apply Hs in E; vm_compute in E; discriminate|reflexivity].
  - vm_compute. match goal with |- context [same ?x ?y] => destruct (same x y) eqn:E end; [apply Hs in E; vm_compute in E; discriminate|reflexivity].
  - vm_compute. repeat split.
Qed.
Print Assumptions C76_unique_refuted.

Lemma header_eqb_refl h : header_eqb h h = true.
Proof.
  unfold header_eqb. replace (class_eqb (h_class h) (h_class h)) with true by (destruct (h_class h); reflexivity).
  rewrite N.eqb_refl, Bool.eqb_reflx. cbn [andb].
  assert (X : blength_eqb (h_length h) (h_length h) = true) by (destruct (h_length h); cbn; [apply N.eqb_refl|reflexivity]).
  rewrite X. destruct (is_null (h_length h) && is_null (h_length h)); cbn [andb];
    (destruct (xor_is_none (h_raw_tag h) (h_raw_tag h)); [|reflexivity]; destruct (h_raw_tag h) as [l|]; cbn; [|reflexivity];
     unfold bytes_eqb; destruct (list_eq_dec N.eq_dec l l); [reflexivity|contradiction]).
Qed.

Lemma from_slice_whole d : located d (from_slice d).
Proof. exists [], []. cbn. rewrite app_nil_r. auto. Qed.

(** An object read from a slice: the place of the content is given by the header. *)
Definition sliced (a : sany) : Prop :=
  exists raw, h_raw_header (sh_fields (sa_header a)) = Some raw /\ sa_data a = mk_input (in_data (sa_data a)) (blen raw) (blen raw + blen (in_data (sa_data a))).

Lemma any_from_ber_sliced d rem a : blen d < 2 ^ 64 -> s_any_from_ber d = Ok (rem, a) ->
  parse_ber_any d = Ok (rem, dataA a) /\ sliced a /\ blen rem <= blen d /\ blen (in_data (sa_data a)) <= blen d.
Proof.
  intros W E. unfold s_any_from_ber, s_wrap in E. destruct (s_parse_ber_any (from_slice d)) as [[r x]| | |] eqn:E1; try discriminate. injection E as <- <-.
  pose proof (parse_ber_any_sim d _ W (from_slice_whole d)) as S. destruct (sim_ok _ _ _ _ _ _ S E1) as [E2 [P Q]].
  cbn [fst snd] in *. split; [exact E2|]. destruct P as (raw & _ & P2 & (p1 & q1 & D1 & S1 & N1) & P4 & P5 & (p2 & q2 & D2 & S2 & N2) & P7 & P8 & (p3 & q3 & D3 & S3 & N3)).
  cbn [from_slice in_start in_end] in *. split; [|split].
  - exists (in_data raw). split; [exact P2|]. unfold adjacent in P5. destruct (sa_data x) as [c s e]. cbn [in_data in_start in_end] in *. f_equal; lia.
  - rewrite D3. unfold blen. rewrite !app_length. lia.
  - apply (f_equal (@length N)) in D2. rewrite !app_length in D2. unfold blen. lia.
Qed.

Lemma seq_items_sliced : forall fuel d l, blen d < 2 ^ 64 -> seq_collect s_any_from_ber fuel d = Ok l ->
  Forall sliced l /\ reads_all parse_ber_any d (map dataA l).
Proof.
  induction fuel as [|fuel IH]; intros d l W E; cbn [seq_collect] in E; [discriminate|].
  destruct (blen d =? 0) eqn:Ed.
  { injection E as <-. split; [constructor|]. destruct d; [constructor|]. apply N.eqb_eq in Ed. rewrite blen_cons in Ed. lia. }
  apply bind_ok in E as ([rem x] & E1 & E). apply bind_ok in E as (xs & E2 & E). injection E as <-.
  assert (E1' : s_any_from_ber d = Ok (rem, x)) by (destruct (s_any_from_ber d) as [[? ?]| | |]; cbn in E1; congruence).
  destruct (any_from_ber_sliced d rem x W E1') as (P & S & B & _). destruct (IH rem xs ltac:(lia) E2) as [F R].
  split; [constructor; assumption|]. cbn [map]. econstructor; [|exact P|exact R]. intros ->. discriminate.
Qed.

Lemma hash_insert_apart {T} (same : T -> T -> bool) s x : apart same s -> apart same (hash_insert same s x).
Proof.
  intros A. unfold hash_insert. destruct (existsb (same x) s) eqn:E; [exact A|].
  assert (X : forall y, In y s -> same x y = false).
  { intros y Hy. apply Bool.not_true_iff_false. intros H. assert (existsb (same x) s = true) by (apply existsb_exists; eauto). congruence. }
  clear E. induction A as [|y s Hy A IH]; [constructor; constructor|]. cbn [app]. constructor.
  - apply Forall_app. split; [exact Hy|]. constructor; [apply X; left; reflexivity|constructor].
  - apply IH. intros z Hz. apply X. right. exact Hz.
Qed.

Lemma hash_collect_any {T} (same : T -> T -> bool) l :
  apart same (hash_collect same l) /\ (forall x, In x (hash_collect same l) -> In x l)
  /\ (forall x, In x l -> exists y, In y (hash_collect same l) /\ (y = x \/ same x y = true)).
Proof.
  unfold hash_collect.
  assert (G : forall l s, apart same s -> apart same (fold_left (hash_insert same) l s)
     /\ (forall x, In x (fold_left (hash_insert same) l s) -> In x s \/ In x l)
     /\ (forall x, In x s -> In x (fold_left (hash_insert same) l s))
     /\ (forall x, In x l -> exists y, In y (fold_left (hash_insert same) l s) /\ (y = x \/ same x y = true))).
  { clear l. induction l as [|x l IH]; intros s A; cbn [fold_left]; [repeat split; cbn; auto; intros ? []|].
    destruct (IH _ (hash_insert_apart same s x A)) as (I1 & I2 & I3 & I4). split; [exact I1|]. split; [|split].
    - intros y Hy. apply I2 in Hy as [Hy|Hy]; [|right; right; exact Hy]. unfold hash_insert in Hy.
      destruct (existsb (same x) s); [left; exact Hy|]. apply in_app_or in Hy as [Hy|[<-|[]]]; [left; exact Hy|right; left; reflexivity].
    - intros y Hy. apply I3. unfold hash_insert. destruct (existsb (same x) s); [exact Hy|apply in_or_app; left; exact Hy].
    - intros y [<-|Hy]; [|apply I4; exact Hy]. destruct (existsb (same x) s) eqn:E.
      + apply existsb_exists in E as (z & Hz & E). exists z. split; [|right; exact E]. apply I3. unfold hash_insert.
        replace (existsb (same x) s) with true; [exact Hz|]. symmetry. apply existsb_exists. eauto.
      + exists x. split; [|left; reflexivity]. apply I3. unfold hash_insert. rewrite E. apply in_or_app. right. left. reflexivity. }
  destruct (G l [] (FOP_nil _)) as (I1 & I2 & _ & I4). split; [exact I1|]. split; [|exact I4].
  intros x Hx. apply I2 in Hx as [[]|Hx]. exact Hx.
Qed.

(** [HashSet<Any>::from_ber], where every item is read from a slice of its own: the items are unique, and every object
    of the content is represented. *)
Theorem C76_from_ber (same : sany -> sany -> bool) (d rem : bytes) (s : list sany) :
  any_set_merges same -> blen d < 2 ^ 64 -> s_hashset_any_from_ber same d = Ok (rem, s) ->
  exists h c vs, parse_ber_any d = Ok (rem, mk_any h c) /\ h_tag h = 17 /\ h_constructed h = true /\ reads_all parse_ber_any c vs
    /\ NoDup (map dataA s) /\ (forall v, In v (map dataA s) -> In v vs)
    /\ (forall v, In v vs -> exists v', In v' (map dataA s) /\ header_eqb (any_header v) (any_header v') = true /\ any_data v' = any_data v).
Proof.
  intros [Hs Hh] W E. unfold s_hashset_any_from_ber in E. apply bind_ok in E as ([rem1 a] & E1 & E).
  destruct (any_from_ber_sliced d rem1 a W E1) as (P & S & B1 & B2).
  apply bind_ok in E as (u1 & A1 & E). apply bind_ok in E as (u2 & A2 & E). apply bind_ok in E as (l & E2 & E). injection E as -> <-.
  destruct (seq_items_sliced _ _ _ (N.le_lt_trans _ _ _ B2 W) E2) as [F R]. destruct (hash_collect_any same l) as (C1 & C2 & C3).
  exists (sh_fields (sa_header a)), (in_data (sa_data a)), (map dataA l). split; [exact P|].
  split; [destruct u1; apply assert_tag_ok in A1; exact A1|]. split; [destruct u2; apply assert_constructed_ok in A2; exact A2|].
  split; [exact R|]. split; [|split].
  - assert (FS : Forall sliced (hash_collect same l)).
    { apply Forall_forall. intros x Hx. rewrite Forall_forall in F. apply F, C2, Hx. }
    revert C1 FS. clear - Hh. generalize (hash_collect same l) as s. intros s A. induction A as [|x s Hx A IH]; intros F; cbn [map]; [constructor|].
    inversion F as [|? ? S1 F1]; subst. constructor; [|apply IH; exact F1]. intros H. apply in_map_iff in H as (y & D & Hy).
    rewrite Forall_forall in Hx, F1. pose proof (F1 y Hy) as S2. specialize (Hx y Hy). cbn beta in Hx.
    unfold dataA in D. injection D as D1 D2. destruct S1 as (r1 & R1 & S1), S2 as (r2 & R2 & S2).
    rewrite D1 in R2. assert (r2 = r1) as -> by congruence. rewrite D2 in S2.
    assert (X : sany_eqb y x = true). { unfold sany_eqb. rewrite D1, header_eqb_refl. apply input_eqb_eq. congruence. }
    rewrite (Hh y x X) in Hx; [discriminate|]. unfold sany_hash_input. rewrite D1. congruence.
  - intros v Hv. apply in_map_iff in Hv as (x & <- & Hx). apply in_map, C2, Hx.
  - intros v Hv. apply in_map_iff in Hv as (x & <- & Hx). destruct (C3 x Hx) as (y & Hy & [->|Y]).
    + exists (dataA x). split; [apply in_map; exact Hy|]. split; [apply header_eqb_refl|reflexivity].
    + exists (dataA y). split; [apply in_map; exact Hy|]. apply Hs in Y. unfold sany_eqb in Y. apply andb_prop in Y as [Y1 Y2].
      apply input_eqb_eq in Y2. split; [exact Y1|]. cbn [dataA any_data]. congruence.
Qed.
Print Assumptions C76_from_ber.

(** [insert] adds an item unless one that compares equal is there and says so; [remove] takes one such item out and says so; after
    [insert] of a new item, [remove] restores the set. *)
Theorem C76_operations (same : sany -> sany -> bool) (s : list sany) (a : sany) : any_set_merges same ->
  ((exists x, In x s /\ same a x = true) ->
     anyset_insert same s a = (s, false) /\ exists x s', anyset_remove same s a = (s', true) /\ same a x = true /\ Permutation s (x :: s'))
  /\ ((forall x, In x s -> same a x = false) ->
     anyset_remove same s a = (s, false)
     /\ exists s', anyset_insert same s a = (s', true) /\ Permutation s' (a :: s) /\ anyset_remove same s' a = (s, true)).
Proof.
  intros [_ M]. split.
  - intros E. assert (B : existsb (same a) s = true) by (apply existsb_exists; exact E). split.
    + unfold anyset_insert, hash_insert. rewrite B. reflexivity.
    + clear E. induction s as [|y s IH]; [discriminate|]. cbn [anyset_remove]. destruct (same a y) eqn:Y; [exists y, s; repeat split; auto|].
      cbn [existsb] in B. rewrite Y in B. destruct (IH B) as (x & s' & R & X & P). rewrite R. exists x, (y :: s'). repeat split; [exact X|].
      rewrite P. apply perm_swap.
  - intros N. assert (B : existsb (same a) s = false).
    { apply not_true_iff_false. intros H. apply existsb_exists in H as (x & I & X). rewrite (N x I) in X. discriminate. }
    split.
    + clear B. induction s as [|y s IH]; [reflexivity|]. cbn [anyset_remove]. rewrite (N y (or_introl eq_refl)), IH by (intros x I; apply N; right; exact I). reflexivity.
    + exists (s ++ [a]). unfold anyset_insert, hash_insert. rewrite B. split; [reflexivity|]. split; [symmetry; apply Permutation_cons_append|].
      assert (R : same a a = true).
      { apply M; [|reflexivity]. unfold sany_eqb. apply andb_true_intro. split; [apply header_eqb_refl|apply input_eqb_eq; reflexivity]. }
      clear B. induction s as [|y s IH]; cbn [app anyset_remove]; [rewrite R; reflexivity|].
      rewrite (N y (or_introl eq_refl)), IH by (intros x I; apply N; right; exact I). reflexivity.
Qed.
Print Assumptions C76_operations.

(** The two ways to read disagree on a set with two equal items; and an item is found in an [AnySet] only with the place
    it was read from. *)
Example C76_case :
  let same a b := sany_eqb a b in
  any_set_merges same
  /\ (exists a, s_hashset_any_from_ber same [49; 6; 2; 1; 5; 2; 1; 5] = Ok ([], [a]))
  /\ (exists a b rem, s_parse_ber (s_anyset_parser same) (from_slice [49; 6; 2; 1; 5; 2; 1; 5]) = SOk (rem, [a; b])
      /\ anyset_remove same [a] b = ([a], false) /\ anyset_insert same [a] b = ([a; b], true) /\ dataA a = dataA b).
Proof.
  cbv zeta. split; [split; auto|]. split; [eexists; vm_compute; reflexivity|]. do 3 eexists. split; [vm_compute; reflexivity|]. vm_compute. auto.
Qed.

(** ** C77: the conversions of Sequence and Set *)

(** The two ways to read: [Vec<T>], [SequenceOf<T>] or [SetOf<T>] at once; or a [Sequence] or [Set] and then its items,
    by any of the methods. *)
Definition in_two_steps {T} (from : bytes -> res (bytes * bytes)) (convert : cow -> res (list T)) (i : bytes)
  : res (bytes * list T) :=
  match read_raw from i with
  | Ok (rem, c) => match convert c with Ok v => Ok (rem, v) | Err e => Err e | Incomplete n => Incomplete n | Panic => Panic end
  | Err e => Err e | Incomplete n => Incomplete n | Panic => Panic
  end.

(** The methods, applied to what was read or to a static copy of it. *)
Definition conversion {T} (to_static : T -> T) (from : bytes -> res (bytes * T)) (f : cow -> res (list T)) : Prop :=
  f = raw_items from \/ f = raw_into_items to_static from \/ f = raw_into_items_ref from
  \/ f = (fun c => raw_items from (raw_to_static c)) \/ f = (fun c => raw_into_items to_static from (raw_to_static c)).

Lemma conversion_borrowed {T} (to_static : T -> T) from f d :
  (forall x, to_static x = x) -> conversion to_static from f -> f (Borrowed d) = seq_items from d.
Proof.
  intros Id [-> |[-> |[-> |[-> | ->]]]]; try reflexivity. cbn [raw_into_items raw_to_static cow_bytes].
  destruct (seq_items from d) as [v| | |]; try reflexivity. cbn [bind]. f_equal. induction v as [|x v IH]; cbn; [reflexivity|]. rewrite Id, IH. reflexivity.
Qed.

(** BER: the same result, errors included.  [to_static] is a deep copy. *)
Theorem C77_ber {T} (L : legacy T) (to_static : T -> T) (f : cow -> res (list T)) (i : bytes) :
  (forall x, to_static x = x) -> conversion to_static (lg_from_ber L) f ->
  in_two_steps (from_ber (raw_codec 16)) f i = lg_from_ber (vec_legacy L) i
  /\ in_two_steps (from_ber (raw_codec 17)) f i = lg_from_ber (setof_legacy L) i.
Proof.
  intros Id C. unfold in_two_steps, read_raw, from_ber, raw_codec. cbn [lg_from_ber vec_legacy setof_legacy try_from_any]. unfold blanket_from_ber, vec_try_from, setof_try_from, raw_try_from, TagSequence, TagSet.
  destruct (parse_ber_any i) as [[rem a]| | |]; [|split; reflexivity..]. cbn [bind].
  destruct (assert_tag (any_header a) 16), (assert_tag (any_header a) 17); cbn [bind];
  (destruct (assert_constructed (any_header a)); cbn [bind]; rewrite ?(conversion_borrowed to_static _ f _ Id C); split; try reflexivity;
   destruct (seq_items (lg_from_ber L) (any_data a)); reflexivity).
Qed.
Print Assumptions C77_ber.

(** DER: what the two steps accept is accepted at once, with the same result; conversely the two steps accept what is in
    constructed form. *)
Theorem C77_der {T} (L : legacy T) (to_static : T -> T) (f : cow -> res (list T)) (i rem : bytes) (vs : list T) :
  (forall x, to_static x = x) -> conversion to_static (lg_from_der L) f ->
  let k := exists a, parse_der_any i = Ok (rem, a) /\ h_constructed (any_header a) = true in
  (in_two_steps (from_der (raw_codec 16)) f i = Ok (rem, vs) <-> lg_from_der (vec_legacy L) i = Ok (rem, vs) /\ k)
  /\ (in_two_steps (from_der (raw_codec 17)) f i = Ok (rem, vs) <-> lg_from_der (setof_legacy L) i = Ok (rem, vs) /\ k).
Proof.
  intros Id C k. unfold in_two_steps, read_raw. cbn [lg_from_der vec_legacy setof_legacy]. unfold vec_from_der, setof_from_der.
  rewrite !from_der_any_eq. unfold from_der, raw_codec. cbn [check_constraints try_from_any]. unfold raw_try_from, TagSequence, TagSet, k.
  destruct (parse_der_any i) as [[rem1 a]| | |]; cbn [bind];
    [|split; (split; [discriminate|intros [E _]; discriminate])..].
  assert (K : (exists b, Ok (rem1, a) = Ok (rem, b) /\ h_constructed (any_header b) = true) <-> rem1 = rem /\ assert_constructed (any_header a) = Ok tt).
  { rewrite assert_constructed_ok. split; [intros (b & E & H); injection E as -> ->; auto|intros [-> H]; eauto]. }
  rewrite !K. clear K.
  assert (G : forall tag,
    match (let* (rem0, d) := (let* x := (let* _ := assert_tag (any_header a) tag in let* _ := assert_constructed (any_header a) in Ok (any_data a)) in Ok (rem1, x)) in Ok (rem0, Borrowed d)) with
    | Ok (rem0, c) => match f c with Ok v => Ok (rem0, v) | Err e => Err e | Incomplete n => Incomplete n | Panic => Panic end
    | Err e => Err e | Incomplete n => Incomplete n | Panic => Panic end = Ok (rem, vs)
    <-> (let* _ := assert_tag (any_header a) tag in let* v := seq_items (lg_from_der L) (any_data a) in Ok (rem1, v)) = Ok (rem, vs)
        /\ rem1 = rem /\ assert_constructed (any_header a) = Ok tt).
  { intros tag. destruct (assert_tag (any_header a) tag); cbn [bind]; [|split; [discriminate|intros [E _]; discriminate]..].
    destruct (assert_constructed (any_header a)) as [[]| | |]; cbn [bind]; [|split; [discriminate|intros (_ & _ & E); discriminate]..].
    rewrite (conversion_borrowed to_static _ f _ Id C). destruct (seq_items (lg_from_der L) (any_data a)); cbn [bind];
      [|split; [discriminate|intros [E _]; discriminate]..].
    split; [intros E; injection E as -> ->; auto|intros [E _]; exact E]. }
  split; apply G.
Qed.
Print Assumptions C77_der.

(** So the items of every list of values come back. *)
Corollary C77_values {A} (t : ty A) (to_static : A -> A) (f : cow -> res (list A)) (vs : list A) (enc x : bytes) :
  wf t -> has_legacy t -> (forall v, to_static v = v) -> encodes (syntax_of (TVec t)) vs enc -> blen enc < 2 ^ 24 -> bytes_ok x ->
  (conversion to_static (lg_from_ber (legacy_of t)) f -> in_two_steps (from_ber (raw_codec 16)) f (enc ++ x) = Ok (x, vs))
  /\ (conversion to_static (lg_from_der (legacy_of t)) f -> in_two_steps (from_der (raw_codec 16)) f (enc ++ x) = Ok (x, vs)).
Proof.
  intros Hwf HL Id E Hn Hx. destruct (C26_encoding_roundtrip (TVec t) vs enc Hwf E Hn) as (_ & _ & R).
  destruct (R x Hx) as (_ & _ & R'). destruct (R' HL) as [R1 R2]. cbn [legacy_of] in R1, R2. split; intros C.
  - rewrite (proj1 (C77_ber (legacy_of t) to_static f (enc ++ x) Id C)). exact R1.
  - apply (C77_der (legacy_of t) to_static f (enc ++ x) x vs Id C). split; [exact R2|].
    destruct (types_sound (TVec t) Hwf) as (S & _).
    destruct (encodes_object _ vs enc S E ltac:(lia)) as (c & k & tg & cb & E1 & E2 & Ht & Hcb & O).
    destruct (object_from_der_any _ _ _ _ _ x O Ht Hcb Hx) as (rt & rh & EA). rewrite from_der_any_eq in EA. eexists. split; [exact EA|].
    cbn in E1. injection E1 as <- <- <-. reflexivity.
Qed.
Print Assumptions C77_values.

(** Only borrowed content can be turned into values that borrow from it. *)
Theorem C77_lifetime {T} (from : bytes -> res (bytes * T)) (c : cow) :
  (forall d, as_raw_slice c = Some d -> raw_into_items_ref from c = raw_items from c /\ raw_parse_into c from = raw_parse c from /\ cow_bytes c = d)
  /\ (as_raw_slice c = None -> raw_into_items_ref from c = Err ELifetimeError /\ raw_parse_into c from = Err ELifetimeError)
  /\ as_raw_slice (raw_to_static c) = None /\ cow_bytes (raw_to_static c) = cow_bytes c
  /\ (forall d, raw_parse (Borrowed d) from = from d /\ raw_parse (Owned d) from = from d).
Proof.
  destruct c as [b|b]; cbn [as_raw_slice raw_to_static cow_bytes].
  - split; [intros d E; injection E as <-; repeat split|]. split; [discriminate|repeat split].
  - split; [discriminate|]. split; [intros _; split; reflexivity|repeat split].
Qed.
Print Assumptions C77_lifetime.

Example C77_case :
  let u8 := TBase (BUint 1) in
  let d := [0x30; 6; 2; 1; 7; 2; 1; 9; 0xff] in
  in_two_steps (from_der (raw_codec 16)) (raw_items (lg_from_der (legacy_of u8))) d = Ok ([0xff], [7; 9]%Z)
  /\ in_two_steps (from_der (raw_codec 16)) (fun c => raw_into_items (fun v => v) (lg_from_der (legacy_of u8)) (raw_to_static c)) d = Ok ([0xff], [7; 9]%Z)
  /\ in_two_steps (from_ber (raw_codec 17)) (raw_items (lg_from_ber (legacy_of u8))) [0x31; 0x80; 2; 1; 7; 0; 0] = Ok ([], [7]%Z)
  /\ raw_into_items_ref (lg_from_der (legacy_of u8)) (Owned [2; 1; 7]) = Err ELifetimeError
  /\ raw_into_items_ref (lg_from_der (legacy_of u8)) (Borrowed [2; 1; 7]) = Ok [7]%Z.
Proof. vm_compute. repeat split. Qed.

(** The primitive form: accepted at once (vec.rs:150-177), not in two steps. *)
Theorem C77_form_refuted :
  let u8 := TBase (BUint 1) in
  exists i vs, lg_from_der (vec_legacy (legacy_of u8)) i = Ok ([], vs)
    /\ in_two_steps (from_der (raw_codec 16)) (raw_items (lg_from_der (legacy_of u8))) i = Err EConstructExpected.
Proof. exists [0x10; 3; 2; 1; 7], [7]%Z. vm_compute. split; reflexivity. Qed.
Print Assumptions C77_form_refuted.

(** ** C78: iter_elements *)

(** [Any::iter_elements] reads BER objects, in either mode. *)
Theorem C78_elements_partial (m : mode) (a : any) (rem : bytes) (vs : list any) :
  bytes_ok (any_data a) ->
  (iter_elements m a = Ok (rem, vs) <-> rem = [] /\ reads_all any_parse_ber (any_data a) vs).
Proof.
  intros H. unfold iter_elements, try_collect. apply collect_reads; [exact object_parser_ber| |exact H].
  intros j rm v _. split; [intros E; exists v; auto|intros (b & E & F); injection F as <-; exact E].
Qed.
Print Assumptions C78_elements_partial.

(** [iter_elements::<DerMode>] hands out an element with an indefinite length. *)
Theorem C78_der_mode_refuted :
  exists a v, iter_elements DerMode a = Ok ([], [v]) /\ h_length (any_header v) = Indefinite
    /\ parse_der_any (any_data a) = Err (EDerConstraintFailed DCIndefiniteLength).
Proof.
  exists (mk_any (mk_header Universal true 16 (Definite 7) None None) [0x30; 0x80; 2; 1; 7; 0; 0]). eexists.
  split; [vm_compute; reflexivity|]. split; vm_compute; reflexivity.
Qed.
Print Assumptions C78_der_mode_refuted.

Example C78_case :
  exists v w, iter_elements BerMode (mk_any (mk_header Universal true 16 (Definite 5) None None) [2; 1; 7; 5; 0]) = Ok ([], [v; w])
    /\ any_data v = [7] /\ h_tag (any_header w) = 5.
Proof. do 2 eexists. vm_compute. repeat split. Qed.

(** ** C79: to_der_len *)

(** [to_der_len], "the length of the object (including the header)": it is the length of the content, which is always
    at least two less. *)
Theorem C79_content_length {A} (t : ty A) (v : A) (enc : bytes) :
  wf t -> encodes (syntax_of t) v enc -> blen enc < 2 ^ 24 ->
  exists cb hd, enc = hd ++ cb /\ sx_content (syntax_of t) v cb /\ 2 <= blen hd
    /\ to_der_len (wr_der (writer_of t) v) = Ok (blen cb) /\ to_vec (wr_der (writer_of t) v) = Ok enc.
Proof.
  intros Hwf E Hn. destruct (types_sound t Hwf) as (S & P & W & _).
  destruct (C26_encoding_roundtrip t v enc Hwf E Hn) as (_ & TV & _).
  destruct (encodes_object _ v enc S E ltac:(lia)) as (c & k & tg & cb & E1 & E2 & Ht & Hcb & O).
  pose proof (object_size _ _ _ _ _ O) as Hsz. destruct W as [W _].
  destruct (W _ _ _ _ _ E1 E2 ltac:(lia)) as (_ & (_ & W2 & _) & _).
  destruct O as (idb & lenb & _ & _ & _ & ->). exists cb, (idb ++ lenb). rewrite <- app_assoc. split; [reflexivity|]. split; [exact E2|].
  split; [rewrite !blen_app in *; lia|]. split; [|exact TV]. unfold to_der_len. rewrite W2. reflexivity.
Qed.
Print Assumptions C79_content_length.

(** So it never is the length of the encoding. *)
Theorem C79_total_refuted :
  exists (v : Z) enc n, let w := wr_der (writer_of (TBase (BUint 1))) v in
    to_vec w = Ok enc /\ to_der_len w = Ok n /\ n <> blen enc /\ total_len w = Definite (blen enc).
Proof. exists 7%Z, [2; 1; 7], 1. vm_compute. repeat split. discriminate. Qed.
Print Assumptions C79_total_refuted.

Example C79_case :
  let w := wr_der (writer_of (TVec (TBase (BUint 1)))) [7; 200]%Z in
  to_vec w = Ok [0x30; 7; 2; 1; 7; 2; 2; 0; 200] /\ to_der_len w = Ok 7.
Proof. vm_compute. split; reflexivity. Qed.
