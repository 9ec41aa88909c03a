(** C102: [to_static] gives the same value without borrowed parts. *)
From Verif Require Import Base MHeader MEncode SHeader PHeader MBer MInt MText MCont MRef MColl.
From Verif Require Import SInt SText SCont PCont SBase PBase PTypes PropColl MStatic.

(** ** Induction over values *)
Section Ind.
  Variable P : obj -> Prop.
  Hypothesis Leaf : forall o, (match o with OVec _ | OOption _ | OBox _ | ORef _ | ODerived _ _ _ => False | _ => True end) -> P o.
  Hypothesis HVec : forall l, Forall P l -> P (OVec l).
  Hypothesis HNone : P (OOption None).
  Hypothesis HSome : forall o, P o -> P (OOption (Some o)).
  Hypothesis HBox : forall o, P o -> P (OBox o).
  Hypothesis HRef : forall o, P o -> P (ORef o).
  Hypothesis HDerived : forall d v l, Forall P l -> P (ODerived d v l).
  Fixpoint obj_all (o : obj) : P o :=
    let list := fix list (l : list obj) : Forall P l :=
      match l with [] => Forall_nil P | x :: l => Forall_cons x (obj_all x) (list l) end in
    match o with
    | OVec l => HVec l (list l)
    | OOption None => HNone
    | OOption (Some x) => HSome x (obj_all x)
    | OBox x => HBox x (obj_all x)
    | ORef x => HRef x (obj_all x)
    | ODerived d v l => HDerived d v l (list l)
    | o => Leaf o I
    end.
End Ind.

(** ** What a value says, and what it borrows *)

(** The value, whoever owns its parts.  Of a header, all but the octets it was read from (see C85). *)
Inductive tree :=
| VBool (b : bool) | VInt (z : Z) | VText (s : list N) | VBytes (b : bytes) | VSequence (b : bytes) | VSet (b : bytes)
| VHeader (c : class) (k : bool) (t : N) (l : blength) (raw : option bytes)
| VList (l : list tree) | VMaybe (o : option tree) | VVariant (d : N) (v : nat) (l : list tree).
Definition said (c : cow) : bytes := match c with Borrowed b => b | Owned b => b end.
Fixpoint value (o : obj) : tree :=
  match o with
  | OBool b => VBool b
  | OInt _ _ z => VInt z
  | OString s | OStr s | OCowStr _ s => VText s
  | OCowBytes c => VBytes (said c)
  | OSequence c => VSequence (said c)
  | OSet c => VSet (said c)
  | OHeader h => VHeader (h_class h) (h_constructed h) (h_tag h) (h_length h) (h_raw_tag h)
  | OVec l => VList (map value l)
  | OOption o => VMaybe (option_map value o)
  | OBox o | ORef o => value o
  | ODerived d v l => VVariant d v (map value l)
  end.

(** Nothing is borrowed. *)
Inductive owned : obj -> Prop :=
| OwBool b : owned (OBool b) | OwInt k w z : owned (OInt k w z) | OwString s : owned (OString s)
| OwCowStr s : owned (OCowStr true s) | OwCowBytes b : owned (OCowBytes (Owned b))
| OwSequence b : owned (OSequence (Owned b)) | OwSet b : owned (OSet (Owned b))
| OwHeader h : h_raw_header h = None -> owned (OHeader h)
| OwVec l : Forall owned l -> owned (OVec l)
| OwNone : owned (OOption None) | OwSome o : owned o -> owned (OOption (Some o))
| OwBox o : owned o -> owned (OBox o)
| OwDerived d v l : Forall owned l -> owned (ODerived d v l).

Theorem C102_copy (o : obj) : owned (to_static o) /\ value (to_static o) = value o.
Proof.
  induction o as [o L|l H| |o IH|o IH|o IH|d v l H] using obj_all.
  - destruct o as [| | | | |c|c|c|h| | | | |]; try destruct L; cbn [to_static value]; (split; [constructor|]; try reflexivity); destruct c; reflexivity.
  - cbn [to_static value]. split.
    + constructor. induction H as [|x l [X _] H IH]; cbn [map]; constructor; assumption.
    + f_equal. induction H as [|x l [_ X] H IH]; cbn [map]; congruence.
  - split; [constructor | reflexivity].
  - cbn [to_static option_map value]. destruct IH as [A B]. split; [constructor; exact A | rewrite B; reflexivity].
  - cbn [to_static value]. destruct IH as [A B]. split; [constructor; exact A | exact B].
  - exact IH.
  - cbn [to_static value]. split.
    + constructor. induction H as [|x l [X _] H IH]; cbn [map]; constructor; assumption.
    + f_equal. induction H as [|x l [_ X] H IH]; cbn [map]; congruence.
Qed.
Print Assumptions C102_copy.

(** A value without borrowed parts is copied as it is; so a copy of a copy is the copy. *)
Theorem C102_again (o : obj) : (owned o -> to_static o = o) /\ to_static (to_static o) = to_static o.
Proof.
  assert (G : forall o, owned o -> to_static o = o).
  { clear. intros o. induction o as [o L|l H| |o IH|o IH|o IH|d v l H] using obj_all; intros W; inversion W; subst; cbn [to_static option_map]; try reflexivity;
      try (destruct L); try (f_equal; auto; fail).
    - destruct h; cbn in *. subst. reflexivity.
    - f_equal. rename H1 into F. clear W. induction F as [|x l X F IH]; [reflexivity|]. inversion H; subst. cbn [map]. f_equal; auto.
    - rewrite IH by assumption. reflexivity.
    - f_equal. match goal with F : Forall owned _ |- _ => clear W; induction F as [|x l X F IH] end; [reflexivity|]. inversion H; subst. cbn [map]. f_equal; auto. }
  split; [apply G | apply G, C102_copy].
Qed.
Print Assumptions C102_again.

(** ** Types *)

Definition fits (signed : bool) (w : nat) (z : Z) : Prop :=
  if signed then (- 2 ^ (8 * Z.of_nat w - 1) <= z < 2 ^ (8 * Z.of_nat w - 1))%Z else (0 <= z < 2 ^ (8 * Z.of_nat w))%Z.
Inductive typed (env : decls) : obj -> otype -> Prop :=
| HasBool b : typed env (OBool b) TyBool
| HasInt k w z : fits k w z -> typed env (OInt k w z) (TyInt k w)
| HasString s : typed env (OString s) TyString
| HasStr s : typed env (OStr s) TyStr
| HasCowStr own s a : typed env (OCowStr own s) (TyCowStr a)
| HasCowBytes c a : typed env (OCowBytes c) (TyCowBytes a)
| HasSequence c a : typed env (OSequence c) (TySequence a)
| HasSet c a : typed env (OSet c) (TySet a)
| HasHeader h a : typed env (OHeader h) (TyHeader a)
| HasVec l t : Forall (fun o => typed env o t) l -> typed env (OVec l) (TyVec t)
| HasNone t : typed env (OOption None) (TyOption t)
| HasSome o t : typed env o t -> typed env (OOption (Some o)) (TyOption t)
| HasBox o t : typed env o t -> typed env (OBox o) (TyBox t)
| HasRef o a t : typed env o t -> typed env (ORef o) (TyRef a t)
| HasDerived d D v fts fs args : env d = Some D -> length args = length (d_generics D) -> nth_error (d_variants D) v = Some fts ->
    Forall2 (typed env) fs (map (instance args) fts) -> typed env (ODerived d v fs) (TyNamed d args).

Lemma owned_with_lives (env : decls) (f : life -> life) (t : otype) : owned_type env (with_lives f t) = owned_type env t.
Proof. induction t; cbn; congruence. Qed.

(** The copy has the announced type, and no lifetime but ['static] is left in it. *)
Theorem C102_typed (env : decls) (o : obj) (t : otype) :
  (forall d D, env d = Some D -> derivable env D) -> typed env o t ->
  typed env (to_static o) (owned_type env t) /\ with_lives (fun _ => LStatic) (owned_type env t) = owned_type env t.
Proof.
  intros E T. split.
  - revert t T. induction o as [o L|l H| |o IH|o IH|o IH|d v l H] using obj_all; intros t T; inversion T; subst; cbn [to_static owned_type option_map];
      try (constructor; auto; fail); try destruct L; auto.
    + constructor. rename H1 into F. clear T. induction F as [|x l X F IH]; cbn [map]; constructor; inversion H; subst; auto.
    + match goal with A : env d = Some _, B : length _ = _, C : nth_error _ _ = _, G : Forall2 _ _ _ |- _ => rename A into Ed, B into La, C into Nv, G into F end. rewrite Ed. destruct (E d D Ed) as [Lg Fv].
      apply (HasDerived env d D v fts); [exact Ed | exact Lg | exact Nv |].
      assert (Ff := Forall_forall (Forall (fun t => owned_type env t = instance (owned_args (d_generics D)) t)) (d_variants D)).
      apply proj1 in Ff. specialize (Ff Fv fts (nth_error_In _ _ Nv)). clear - F H Ff.
      revert l F H. induction Ff as [|t fts X Ff IH]; intros l F H; cbn [map] in F; inversion F; subst; [constructor|].
      inversion H; subst. cbn [map]. constructor; [|apply IH; assumption].
      rewrite <- X. rewrite <- (owned_with_lives env (fun a => match a with LStatic => LStatic | LNamed k => nth k args LStatic end) t). auto.
  - clear. induction t; cbn [owned_type with_lives]; try congruence. destruct (env d); [|reflexivity]. f_equal. unfold owned_args. rewrite map_map. reflexivity.
Qed.
Print Assumptions C102_typed.

(** ** Which declarations the derive accepts *)

(** No references in the types of the fields. *)
Fixpoint without_refs (t : otype) : Prop :=
  match t with
  | TyRef _ _ | TyStr => False
  | TyVec t | TyOption t | TyBox t => without_refs t
  | _ => True
  end.
(** The types which occur have as many arguments as their declarations want. *)
Fixpoint arity (env : decls) (t : otype) : Prop :=
  match t with
  | TyVec t | TyOption t | TyBox t | TyRef _ t => arity env t
  | TyNamed d args => exists D, env d = Some D /\ length args = length (owned_args (d_generics D))
  | _ => True
  end.

Lemma all_static (l : list life) : Forall (fun a => a = LStatic) l -> l = map (fun _ => LStatic) l.
Proof. induction 1 as [|a l -> H IH]; cbn [map]; congruence. Qed.
Lemma owned_instance (env : decls) (g : list generic) (t : otype) : arity env t ->
  (owned_type env t = instance (owned_args g) t <-> without_refs t).
Proof.
  assert (S : forall a, (match a with LStatic => LStatic | LNamed k => nth k (owned_args g) LStatic end) = LStatic).
  { intros [|k]; [reflexivity|]. destruct (nth_in_or_default k (owned_args g) LStatic) as [I|I]; [|exact I].
    unfold owned_args in I at 2. apply in_map_iff in I. destruct I as (x & X & _). symmetry. exact X. }
  assert (R : forall t u a, owned_type env t <> TyRef a u).
  { clear. intros t. induction t; cbn [owned_type]; intros u b; try discriminate. apply IHt. }
  unfold instance. induction t; cbn [arity owned_type with_lives without_refs]; intros A; rewrite ?S; try tauto.
  - split; [discriminate | tauto].
  - rewrite <- IHt by exact A. split; congruence.
  - rewrite <- IHt by exact A. split; congruence.
  - rewrite <- IHt by exact A. split; congruence.
  - split; [intros X; exact (R _ _ _ X) | tauto].
  - destruct A as (D & -> & L). split; [tauto|]. intros _. f_equal.
    transitivity (map (fun _ : life => LStatic) args); [|apply map_ext; intros a; rewrite S; reflexivity].
    assert (X : forall m, Forall (fun a => a = LStatic) m -> length args = length m -> m = map (fun _ => LStatic) args).
    { clear. intros m. revert args. induction m as [|y m IH]; intros [|x args] F Lm; try discriminate; [reflexivity|]. inversion F; subst. cbn [map]. f_equal. auto. }
    apply X; [|exact L]. unfold owned_args. apply Forall_map, Forall_forall. reflexivity.
Qed.

(** Exactly the declarations without type and const parameters and without references in their fields. *)
Theorem C102_derive (env : decls) (D : decl) : Forall (Forall (arity env)) (d_variants D) ->
  (derivable env D <-> Forall (fun g => g = GLifetime) (d_generics D) /\ Forall (Forall without_refs) (d_variants D)).
Proof.
  intros A. unfold derivable.
  assert (G : length (owned_args (d_generics D)) = length (d_generics D) <-> Forall (fun g => g = GLifetime) (d_generics D)).
  { generalize (d_generics D) as g. clear. unfold owned_args. intros g. rewrite map_length. split.
    - induction g as [|x g IH]; intros H; [constructor|]. cbn [filter] in H.
      assert (B : forall g : list generic, (length (filter (fun g => match g with GLifetime => true | _ => false end) g) <= length g)%nat).
      { clear. induction g as [|x g IH]; [cbn; lia|]. cbn [filter]. destruct x; cbn [length]; lia. }
      destruct x; cbn [length] in H; [constructor; [reflexivity | apply IH; lia] | specialize (B g); lia | specialize (B g); lia].
    - induction 1 as [|x g -> H IH]; cbn; congruence. }
  rewrite G. apply and_iff_compat_l. revert A. generalize (d_variants D) as vs. intros vs A.
  assert (F : forall l, Forall (arity env) l -> (Forall (fun t => owned_type env t = instance (owned_args (d_generics D)) t) l <-> Forall without_refs l)).
  { intros l Al. induction Al as [|t l At Al IH]; [split; constructor|]. rewrite !Forall_cons_iff, IH, (owned_instance env (d_generics D) t At). reflexivity. }
  induction A as [|l vs Al A IH]; [split; constructor|]. rewrite !Forall_cons_iff, IH, (F l Al). reflexivity.
Qed.
Print Assumptions C102_derive.

(** The derive cannot be used on [struct S<T>(T)], nor on [struct S<'a>(&'a u8)]. *)
Theorem C102_derive_refuted :
  (exists D env, Forall (Forall (arity env)) (d_variants D) /\ d_generics D = [GType] /\ ~ derivable env D)
  /\ (exists D env, Forall (Forall (arity env)) (d_variants D) /\ d_variants D = [[TyRef (LNamed 0) (TyInt false 1)]] /\ ~ derivable env D).
Proof.
  split.
  - exists (mk_decl [GType] [[]]), (fun _ => None). split; [repeat constructor|]. split; [reflexivity|]. intros [H _]. discriminate H.
  - exists (mk_decl [GLifetime] [[TyRef (LNamed 0) (TyInt false 1)]]), (fun _ => None). split; [repeat constructor|]. split; [reflexivity|].
    intros [_ H]. inversion H as [|? ? X]; subst. inversion X as [|? ? Y]; subst. discriminate Y.
Qed.
Print Assumptions C102_derive_refuted.

(** ** Writing *)

Lemma items_none (l : list obj) (x : obj) : In x l -> obj_tober x = None ->
  fold_right (fun o r => match obj_tober o, r with Some w, Some ws => Some (w :: ws) | _, _ => None end) (Some []) l = None.
Proof.
  induction l as [|y l IH]; intros I E; [destruct I|]. cbn [fold_right]. destruct I as [->|I]; [rewrite E; reflexivity|].
  rewrite (IH I E). destruct (obj_tober y); reflexivity.
Qed.
Lemma ref_same (w : tober) : ref_tober w = w.
Proof. destruct w; reflexivity. Qed.

Lemma tober_static (o : obj) (w : tober) : obj_tober o = Some w -> obj_tober (to_static o) = Some w.
Proof.
  revert w. induction o as [o L|l H| |o IH|o IH|o IH|d v l H] using obj_all; intros w W; try discriminate W.
  - destruct o as [| | | | |c|c|c|h| | | | |]; try destruct L; try discriminate W; try exact W; cbn [to_static obj_tober] in *; try (destruct c; exact W).
  - cbn [to_static obj_tober] in *.
    set (f := fun o r => match obj_tober o, r with Some w, Some ws => Some (w :: ws) | _, _ => None end) in *.
    destruct (fold_right f (Some []) l) as [ws|] eqn:F; [|discriminate W]. rewrite <- W.
    enough (fold_right f (Some []) (map to_static l) = Some ws) as -> by reflexivity. clear W.
    revert ws F. induction H as [|x l X H IH]; intros ws F; [exact F|]. cbn [fold_right map] in *. unfold f at 1 in F. unfold f at 1.
    destruct (obj_tober x) as [wx|] eqn:Ex; [|discriminate F]. rewrite (X wx eq_refl).
    destruct (fold_right f (Some []) l) as [r|] eqn:Er; [|discriminate F]. rewrite (IH r eq_refl). exact F.
  - assert (C : (exists s, o = OStr s) \/ obj_tober (ORef o) = option_map ref_tober (obj_tober o)) by (destruct o; solve [right; reflexivity | left; eexists; reflexivity]).
    destruct C as [[s ->]|C]; [exact W|]. rewrite C in W. destruct (obj_tober o) as [x|] eqn:X; [|discriminate W]. cbn [option_map] in W. rewrite ref_same in W.
    injection W as <-. exact (IH x eq_refl).
Qed.

(** What is written is the same, if it is not written through a reference to an [Option]. *)
Fixpoint refers_to_option (o : obj) : Prop := match o with ORef (OOption _) => True | ORef o => refers_to_option o | _ => False end.
Theorem C102_written (o : obj) (w : wres) : ~ refers_to_option o -> obj_write o = Some w -> obj_write (to_static o) = Some w.
Proof.
  assert (T : forall o : obj, (forall x, to_static o <> OOption x) -> (forall x, to_static o <> ORef x)-> obj_write (to_static o) = option_map encode (obj_tober (to_static o))).
  { clear. intros o N1 N2. destruct (to_static o); try reflexivity; [destruct (N1 _ eq_refl) | destruct (N2 _ eq_refl)]. }
  assert (NR : forall o x, to_static o <> ORef x).
  { clear. intros o. induction o as [o L|l H| |o IH|o IH|o IH|d v l H] using obj_all; cbn [to_static]; intros x; try discriminate; [|apply IH]. destruct o; try destruct L; discriminate. }
  assert (G : forall o, ~ refers_to_option (ORef o) -> (forall x, referred o <> OOption x) /\ (forall x, to_static o <> OOption x)).
  { clear. intros o. induction o as [o L|l H| |o IH|o IH|o IH|d v l H] using obj_all; intros N; try (split; discriminate).
    - destruct o; try destruct L; split; discriminate.
    - destruct N. exact I.
    - destruct N. exact I.
    - cbn [referred to_static]. apply IH. exact N. }
  intros N W. destruct o as [| | | | | | | | | |x| |r|]; try discriminate W;
    try (cbn [obj_write] in W; destruct (obj_tober _) as [t|] eqn:E in W; [|discriminate W]; rewrite T by (first [apply NR | discriminate]);
         rewrite (tober_static _ _ E); exact W).
  - cbn [obj_write] in W. cbn [to_static obj_write]. destruct x as [x|]; [|exact W]. cbn [option_items option_map] in *.
    destruct (obj_tober x) as [t|] eqn:E; [|discriminate W]. rewrite (tober_static _ _ E). exact W.
  - destruct (G r N) as [G1 G2]. assert (W' : option_map encode (obj_tober (ORef r)) = Some w).
    { cbn [obj_write] in W. destruct (referred r) as [| | | | | | | | | |x| | |]; try exact W. destruct (G1 _ eq_refl). }
    destruct (obj_tober (ORef r)) as [t|] eqn:E; [|discriminate W']. cbn [to_static]. rewrite T by (assumption || apply NR).
    pose proof (tober_static (ORef r) t E) as X. cbn [to_static] in X. rewrite X. exact W'.
Qed.
Print Assumptions C102_written.

(** [&None] is written as two zero octets, its copy not at all; [&Some(5)] cannot be written, its copy can. *)
Theorem C102_written_refuted :
  exists o o' : obj, obj_write o = Some (Ok ([0; 0], 2)) /\ obj_write (to_static o) = Some (Ok ([], 0))
  /\ obj_write o' = Some Panic /\ obj_write (to_static o') = Some (Ok ([2; 1; 5], 3)).
Proof. exists (ORef (OOption None)), (ORef (OOption (Some (OInt false 1 5%Z)))). repeat split; vm_compute; reflexivity. Qed.
Print Assumptions C102_written_refuted.

(** ** Elements copied by the conversions of Sequence and Set (C77) *)

(** Types which [into_ber_sequence_of] and the others can be used with, and their values. *)
Inductive embeds : forall A, ty A -> (A -> obj) -> Prop :=
| EmBool : embeds bool (TBase BBool) OBool
| EmInt w : embeds Z (TBase (BInt w)) (OInt true w)
| EmUint w : embeds Z (TBase (BUint w)) (OInt false w)
| EmString : embeds (list N) (TBase BOwnedString) OString
| EmVec A t e : embeds A t e -> embeds (list A) (TVec t) (fun l => OVec (map e l)).

Lemma embeds_owned A (t : ty A) e : embeds A t e -> (forall x, owned (e x)) /\ (forall x y, e x = e y -> x = y).
Proof.
  induction 1 as [|w|w| |A t e E [IH1 IH2]]; try (solve [split; [constructor | intros x y H; injection H; auto]]).
  split.
  - intros l. constructor. apply Forall_map, Forall_forall. auto.
  - intros l l' H. injection H as H. revert l' H. induction l as [|x l IH]; intros [|y l'] H; try discriminate; [reflexivity|].
    cbn [map] in H. injection H as X H. f_equal; auto.
Qed.
(** Both ways of reading a SEQUENCE OF give the values, whatever is owned; [copy] is [to_static] on the type of the elements. *)
Theorem C102_sequences {A} (t : ty A) (e : A -> obj) (copy : A -> A) (f : cow -> res (list A)) (vs : list A) (enc x : bytes) :
  embeds A t e -> (forall v, e (copy v) = to_static (e v)) ->
  wf t -> has_legacy t -> encodes (syntax_of (TVec t)) vs enc -> blen enc < 2 ^ 24 -> bytes_ok x ->
  (conversion copy (lg_from_ber (legacy_of t)) f -> in_two_steps (from_ber (raw_codec 16)) f (enc ++ x) = Ok (x, vs))
  /\ (conversion copy (lg_from_der (legacy_of t)) f -> in_two_steps (from_der (raw_codec 16)) f (enc ++ x) = Ok (x, vs)).
Proof.
  intros E C. destruct (embeds_owned A t e E) as [O J]. intros W L H B X. apply (C77_values t copy f vs enc x W L); try assumption.
  intros v. apply J. rewrite C. apply C102_again. apply O.
Qed.
Print Assumptions C102_sequences.

(** [enum E<'a> { A, B(Cow<'a, str>, Vec<Option<Sequence<'a>>>) }] *)
Example C102_case :
  let D := mk_decl [GLifetime] [[]; [TyCowStr (LNamed 0); TyVec (TyOption (TySequence (LNamed 0)))]] in
  let env := fun d => if d =? 7 then Some D else None in
  let v := ODerived 7 1 [OCowStr false [65]; OVec [OOption (Some (OSequence (Borrowed [5; 0]))); OOption None]] in
  (forall d D, env d = Some D -> derivable env D) /\ typed env v (TyNamed 7 [LNamed 3])
  /\ ~ owned v
  /\ to_static v = ODerived 7 1 [OCowStr true [65]; OVec [OOption (Some (OSequence (Owned [5; 0]))); OOption None]]
  /\ typed env (to_static v) (TyNamed 7 [LStatic]).
Proof.
  cbv zeta. split; [|split; [|split; [|split]]].
  - intros d D H. cbv beta in H. destruct (N.eqb_spec d 7); [|discriminate]. injection H as <-. split; [reflexivity|]. cbn. repeat constructor.
  - eapply HasDerived; [reflexivity | reflexivity | reflexivity |]. cbn [map]. repeat constructor.
  - intros H. inversion H as [| | | | | | | | | | | |? ? ? F]; subst. inversion F as [|? ? X]; subst. inversion X.
  - reflexivity.
  - eapply HasDerived; [reflexivity | reflexivity | reflexivity |]. cbn [map]. repeat constructor.
Qed.
(** A vector of references: [vec![&1u8, &200u8]]. *)
Example C102_written_case :
  let v := OVec [ORef (OInt false 1 1%Z); ORef (OInt false 1 200%Z)] in
  ~ refers_to_option v /\ obj_write v = Some (Ok ([48; 7; 2; 1; 1; 2; 2; 0; 200], 9))
  /\ to_static v = OVec [OInt false 1 1%Z; OInt false 1 200%Z].
Proof. cbv zeta. split; [intros []|]. split; vm_compute; reflexivity. Qed.
