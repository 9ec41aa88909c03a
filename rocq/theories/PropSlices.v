(** Property C101: what is logged when types are read from slices. *)
From Verif Require Import Base MHeader PHeader MEncode MBer MInt MCont MColl MSpan SSpan PSpan PropSpan MTrace PropTrace PSafe PIter.

(** ** Silence *)

(** Nothing is written with the features off; nothing on success without [trace]. *)
Definition mute (c : config) {A} (m : logged (res A)) : Prop :=
  debugging c = false \/ cf_trace c = false /\ (exists a, snd m = Ok a) -> fst m = [].
Lemma mute_silent c {A} (r : res A) : mute c (silent r).
Proof. intros _. reflexivity. Qed.
Lemma mute_bind c {A B} (m : logged (res A)) (f : A -> logged (res B)) : mute c m -> (forall a, mute c (f a)) -> mute c (rbind m f).
Proof.
  unfold mute, rbind. intros E H D. destruct (snd m) as [a| | |] eqn:S; cbn [fst snd] in *.
  - rewrite E, (H a); [reflexivity | tauto|]. destruct D as [D|[D _]]; [tauto|]. right. split; [exact D | exists a; reflexivity].
  - apply E. destruct D as [D|[D [? Z]]]; [tauto | discriminate].
  - apply E. destruct D as [D|[D [? Z]]]; [tauto | discriminate].
  - apply E. destruct D as [D|[D [? Z]]]; [tauto | discriminate].
Qed.
Lemma mute_generic {I O} c s (f : I -> logged (res O)) i : mute c (f i) -> mute c (trace_generic c s f i).
Proof.
  unfold mute, trace_generic, tracing. intros H D. destruct (debugging c) eqn:G; [|tauto]. cbv zeta in *. destruct D as [D|[D [a Z]]]; [discriminate|].
  rewrite D in *. destruct (snd (f i)); try discriminate. cbn. rewrite app_nil_r. apply H. right. split; [reflexivity | eauto].
Qed.
Lemma mute_trace {T} c s (f : bytes -> logged (res (bytes * T))) i : mute c (f i) -> mute c (trace c s f i).
Proof.
  unfold mute, trace, tracing. intros H D. destruct (debugging c) eqn:G; [|tauto]. cbv zeta in *. destruct D as [D|[D [a Z]]]; [discriminate|].
  rewrite D in *. destruct (snd (f i)) as [[rem x]| | |]; try discriminate. cbn. apply H. right. split; [reflexivity | eauto].
Qed.
Lemma mute_close c {A} (m : logged (res A)) : mute c m -> mute c (fst m, close (snd m)).
Proof.
  unfold mute. cbn [fst snd]. intros H D. apply H. destruct D as [D|[D [a Z]]]; [tauto|]. right. split; [exact D|].
  exists a. destruct (snd m); cbn in Z; congruence.
Qed.
Lemma mute_any c (f : input -> lres (input * sany)) d : writes_nothing c (f (from_slice d)) -> mute c (t_any_from f d).
Proof.
  intros H. apply mute_bind; [|intros [rem a]; apply mute_silent]. intros D. apply H. unfold t_wrap in D. cbn [snd] in D.
  destruct D as [D|[D [q Z]]]; [tauto|]. right. split; [exact D|]. destruct (snd (f (from_slice d))); try discriminate. eauto.
Qed.
Lemma mute_any_ber c d : mute c (t_any_from_ber c d).
Proof.
  apply mute_any. unfold t_parse_ber_any. apply nothing_trace. apply nothing_bind; [apply nothing_trace, nothing_silent|]. intros [r h].
  apply nothing_bind; [apply nothing_content|]. intros [? ?]. apply nothing_silent.
Qed.
Lemma mute_any_der c d : mute c (t_any_from_der c d).
Proof.
  apply mute_any. unfold t_parse_der_any. apply nothing_trace. apply nothing_bind; [apply nothing_trace, nothing_silent|]. intros [r h].
  apply nothing_bind; [apply nothing_silent|]. intros _. apply nothing_bind; [apply nothing_silent|]. intros [? ?]. apply nothing_silent.
Qed.

Section Mute.
  Context (c : config).
  Lemma mute_items {T} (p : bytes -> logged (res (bytes * T))) : (forall d, mute c (p d)) -> forall fuel i, mute c (t_seq_collect p fuel i).
  Proof.
    intros H. induction fuel as [|fuel IH]; intros i; cbn [t_seq_collect]; [apply mute_silent|]. destruct (blen i =? 0); [apply mute_silent|].
    apply mute_bind; [apply mute_close, H|]. intros [rem x]. apply mute_bind; [apply IH|]. intros xs. apply mute_silent.
  Qed.
  Lemma mute_from_der {T U} tag form (of_list : list T -> U) p : (forall d, mute c (p d)) -> forall d, mute c (t_collection_from_der c tag form of_list p d).
  Proof.
    intros H d. apply mute_generic. apply mute_bind; [apply mute_trace, mute_any_der|]. intros [rem a].
    do 2 (apply mute_bind; [apply mute_silent|]; intros _). apply mute_bind; [apply mute_items, H|]. intros v. apply mute_silent.
  Qed.
  Lemma mute_try_from {T U} tag (of_list : list T -> U) p a : (forall d, mute c (p d)) -> mute c (t_collection_try_from tag of_list p a).
  Proof.
    intros H. do 2 (apply mute_bind; [apply mute_silent|]; intros _). apply mute_bind; [apply mute_items, H|]. intros v. apply mute_silent.
  Qed.
  Lemma mute_from_ber {T} (conv : any -> logged (res T)) : (forall a, mute c (conv a)) -> forall d, mute c (t_blanket_from_ber c conv d).
  Proof.
    intros H d. apply mute_bind; [apply mute_any_ber|]. intros [rem a]. specialize (H a). unfold mute in *.
    intros D. destruct (snd (conv a)) as [x|e|n|]; cbn [fst snd] in *.
    - apply H. destruct D as [D|[D _]]; eauto.
    - destruct D as [D|[_ [? Z]]]; [|discriminate]. rewrite H by tauto. rewrite D. reflexivity.
    - destruct D as [D|[_ [? Z]]]; [|discriminate]. rewrite H by tauto. rewrite D. reflexivity.
    - apply H. destruct D as [D|[_ [? Z]]]; [tauto | discriminate].
  Qed.
  Lemma mute_types {T} (t : gty T) : forall d, mute c (t_from_ber c t d) /\ mute c (t_from_der c t d).
  Proof.
    induction t as [T tag p|T t IH|T t IH|T cmp t IH|T same t IH]; intros d; cbn [t_from_ber t_from_der]; split;
      try (apply mute_from_der; apply IH); try (apply mute_from_ber; intros a; first [apply mute_try_from | apply mute_generic, mute_try_from | apply mute_silent]; apply IH).
    apply mute_generic. apply mute_bind; [apply mute_any_der|]. intros [rem a]. do 2 (apply mute_bind; [apply mute_silent|]; intros ?). apply mute_silent.
  Qed.
End Mute.

(** ** Reports *)

Definition refused {A} (r : res A) : Prop := (exists e, r = Err e) \/ (exists n, r = Incomplete n).

Lemma app_not_nil {A} (l : list A) x r : l ++ x :: r <> [].
Proof. destruct l; discriminate. Qed.
Lemma trace_speaks {T} c s (f : input -> lres (input * T)) i : debugging c = true ->
  (exists a e, snd (trace_input c s f i) = SErr a e) \/ (exists n, snd (trace_input c s f i) = SIncomplete n) -> fst (trace_input c s f i) <> [].
Proof.
  intros D. unfold trace_input. rewrite D. cbv zeta. destruct (snd (f i)) as [[rem x]|a e|n|].
  - destruct (cf_asserts c && _); intros [(? & ? & Z)|(? & Z)]; discriminate.
  - intros _. cbn [fst]. rewrite app_assoc. apply app_not_nil.
  - intros _. cbn [fst]. rewrite app_assoc. apply app_not_nil.
  - intros [(? & ? & Z)|(? & Z)]; discriminate.
Qed.
Lemma generic_speaks {I O} c s (f : I -> logged (res O)) i : debugging c = true ->
  refused (snd (trace_generic c s f i)) -> fst (trace_generic c s f i) <> [].
Proof.
  intros D. unfold trace_generic, refused. rewrite D. cbv zeta. destruct (snd (f i)) as [x|e|n|]; cbn [fst snd].
  - intros [(? & Z)|(? & Z)]; discriminate.
  - intros _. rewrite app_assoc. apply app_not_nil.
  - intros _. rewrite app_assoc. apply app_not_nil.
  - intros [(? & Z)|(? & Z)]; discriminate.
Qed.
Lemma any_ber_speaks c d : debugging c = true -> refused (snd (t_any_from_ber c d)) -> fst (t_any_from_ber c d) <> [].
Proof.
  intros D H. unfold t_any_from_ber, t_any_from, rbind, t_wrap in *. cbn [snd fst] in *.
  pose proof (trace_speaks c AtAny (fun i => let! (i, h) := t_header c i in let! (i, data) := t_ber_object_content c h i MAX_RECURSION in silent (SOk (i, mk_sany h data)))
    (from_slice d) D) as X. change (trace_input c AtAny _ (from_slice d)) with (t_parse_ber_any c (from_slice d)) in X.
  destruct (snd (t_parse_ber_any c (from_slice d))) as [[rem a]|a e|n|]; cbn [fst snd] in *.
  - destruct H as [(? & Z)|(? & Z)]; discriminate.
  - apply X. eauto.
  - apply X. eauto.
  - destruct H as [(? & Z)|(? & Z)]; discriminate.
Qed.
Lemma blanket_speaks {T} c (conv : any -> logged (res T)) d : debugging c = true ->
  refused (snd (t_blanket_from_ber c conv d)) -> fst (t_blanket_from_ber c conv d) <> [].
Proof.
  intros D. pose proof (any_ber_speaks c d D) as A. unfold t_blanket_from_ber, rbind, refused in *. rewrite D.
  destruct (snd (t_any_from_ber c d)) as [[rem a]|e|n|]; cbn [fst snd] in *; intros H; try (apply A; destruct H as [(? & Z)|(? & Z)]; eauto; discriminate).
  destruct (snd (conv a)) as [x|e|n|]; cbn [fst snd] in *.
  - destruct H as [(? & Z)|(? & Z)]; discriminate.
  - rewrite app_assoc. apply app_not_nil.
  - rewrite app_assoc. apply app_not_nil.
  - destruct H as [(? & Z)|(? & Z)]; discriminate.
Qed.

(** ** Lines of the functions called *)

Lemma rbind_keeps {A B} (m : logged (res A)) (f : A -> logged (res B)) : exists rest, fst (rbind m f) = fst m ++ rest.
Proof. unfold rbind. destruct (snd m) as [a| | |]; cbn [fst]; [eexists; reflexivity|..]; exists []; rewrite app_nil_r; reflexivity. Qed.
Lemma generic_keeps {I O} c s (f : I -> logged (res O)) i : exists pre rest, fst (trace_generic c s f i) = pre ++ fst (f i) ++ rest.
Proof.
  unfold trace_generic. destruct (debugging c); cbv zeta; [|exists [], []; rewrite app_nil_r; reflexivity].
  destruct (snd (f i)); cbn [fst]; eexists; eexists; try reflexivity. rewrite <- (app_nil_r (fst (f i))) at 1. reflexivity.
Qed.
Lemma trace_keeps {T} c s (f : bytes -> logged (res (bytes * T))) i : exists pre rest, fst (trace c s f i) = pre ++ fst (f i) ++ rest.
Proof.
  unfold trace. destruct (debugging c); cbv zeta; [|exists [], []; rewrite app_nil_r; reflexivity].
  destruct (snd (f i)) as [[rem x]| | |]; cbn [fst]; [|eexists; eexists; reflexivity|eexists; eexists; reflexivity|].
  - destruct (tracing c); [destruct (_ && _)|]; cbn [fst]; eexists; eexists; try reflexivity; rewrite <- (app_nil_r (fst (f i))) at 1; reflexivity.
  - eexists; eexists. rewrite <- (app_nil_r (fst (f i))) at 1. reflexivity.
Qed.
Lemma any_keeps (f : input -> lres (input * sany)) d : fst (t_any_from f d) = fst (f (from_slice d)).
Proof. unfold t_any_from, rbind, t_wrap. cbn [fst snd]. destruct (snd (f (from_slice d))) as [[rem a]| | |]; cbn; rewrite ?app_nil_r; reflexivity. Qed.

Definition within (l whole : list line) : Prop := exists pre rest, whole = pre ++ l ++ rest.
Lemma within_refl l : within l l.
Proof. exists [], []. rewrite app_nil_r. reflexivity. Qed.
Lemma within_trans a b w : within a b -> within b w -> within a w.
Proof. intros (p & r & ->) (q & s & ->). exists (q ++ p), (r ++ s). rewrite !app_assoc. reflexivity. Qed.
Lemma within_bind {A B} (m : logged (res A)) (f : A -> logged (res B)) : within (fst m) (fst (rbind m f)).
Proof. destruct (rbind_keeps m f) as [rest E]. exists [], rest. exact E. Qed.
Lemma within_next {A B} (m : logged (res A)) (f : A -> logged (res B)) a : snd m = Ok a -> within (fst (f a)) (fst (rbind m f)).
Proof. intros E. unfold rbind. rewrite E. exists (fst m), []. rewrite app_nil_r. reflexivity. Qed.

(** What is written while items are read one after the other, up to the first which is refused. *)
Inductive items_written {T} (p : bytes -> logged (res (bytes * T))) : bytes -> list line -> Prop :=
| iw_none : items_written p [] []
| iw_last i : i <> [] -> (forall q, snd (p i) <> Ok q) -> items_written p i (fst (p i))
| iw_more i rem x l : i <> [] -> snd (p i) = Ok (rem, x) -> items_written p rem l -> items_written p i (fst (p i) ++ l).

Definition progress {T} (p : bytes -> logged (res (bytes * T))) : Prop :=
  forall i rem x, bytes_ok i -> blen i < 2 ^ 64 -> snd (p i) = Ok (rem, x) -> (length rem < length i)%nat /\ bytes_ok rem.

Lemma items_lines {T} (p : bytes -> logged (res (bytes * T))) : progress p -> forall fuel i, (length i < fuel)%nat -> bytes_ok i -> blen i < 2 ^ 64 ->
  items_written p i (fst (t_seq_collect p fuel i)).
Proof.
  intros P. induction fuel as [|fuel IH]; intros i L B W; [lia|]. cbn [t_seq_collect]. destruct i as [|b i]; [constructor|].
  replace (blen (b :: i) =? 0) with false by (symmetry; apply N.eqb_neq; unfold blen; cbn [length]; lia).
  unfold rbind at 1. cbn [fst snd]. destruct (snd (p (b :: i))) as [[rem x]|e|n|] eqn:E; cbn [close fst].
  - destruct (P _ _ _ B W E) as [S Br]. replace (fst (rbind (t_seq_collect p fuel rem) (fun xs => silent (Ok (x :: xs))))) with (fst (t_seq_collect p fuel rem)).
    + eapply iw_more; [discriminate | exact E|]. apply IH; try assumption; [lia|]. unfold blen in *. lia.
    + unfold rbind. destruct (snd (t_seq_collect p fuel rem)); cbn; rewrite ?app_nil_r; reflexivity.
  - apply iw_last; [discriminate|]. rewrite E. discriminate.
  - apply iw_last; [discriminate|]. rewrite E. discriminate.
  - apply iw_last; [discriminate|]. rewrite E. discriminate.
Qed.

Lemma rbind_inv {A B} (m : logged (res A)) (f : A -> logged (res B)) y : snd (rbind m f) = Ok y -> exists a, snd m = Ok a /\ snd (f a) = Ok y.
Proof. rewrite snd_rbind. intros H. apply bind_ok in H as (a & E & F). eauto. Qed.
Lemma trace_inv {T} c s (f : bytes -> logged (res (bytes * T))) i q : snd (trace c s f i) = Ok q -> snd (f i) = Ok q.
Proof.
  unfold trace. destruct (debugging c); [|auto]. cbv zeta. destruct (snd (f i)) as [[rem x]| | |]; cbn; try discriminate.
  destruct (tracing c); [destruct (_ && _)|]; cbn; try discriminate; auto.
Qed.
Lemma ber_any_shorter c d rem a : bytes_ok d -> blen d < 2 ^ 64 -> snd (t_any_from_ber c d) = Ok (rem, a) ->
  (length rem < length d)%nat /\ bytes_ok rem /\ bytes_ok (any_data a) /\ blen (any_data a) < 2 ^ 64.
Proof.
  intros B W H. destruct (any_from_ber c d W) as [E K]. rewrite E in H. destruct (K _ _ H) as [_ K2].
  rewrite <- any_parse_ber_eq in H by exact B. apply any_ber_next in H; [|exact B]. destruct H as (H1 & H2 & H3). repeat split; try assumption. lia.
Qed.
Lemma der_any_shorter c d rem a : bytes_ok d -> blen d < 2 ^ 64 -> snd (t_any_from_der c d) = Ok (rem, a) ->
  (length rem < length d)%nat /\ bytes_ok rem /\ bytes_ok (any_data a) /\ blen (any_data a) < 2 ^ 64.
Proof.
  intros B W H. destruct (any_from_der c d W) as [E K]. rewrite E in H. destruct (K _ _ H) as [_ K2].
  rewrite <- any_parse_der_eq in H by exact B. apply any_der_next in H; [|exact B]. destruct H as (H1 & H2 & H3). repeat split; try assumption. lia.
Qed.
Lemma blanket_any {T} c (conv : any -> logged (res T)) d rem x : snd (t_blanket_from_ber c conv d) = Ok (rem, x) -> exists a, snd (t_any_from_ber c d) = Ok (rem, a).
Proof.
  intros H. apply rbind_inv in H as ([rem' a] & E & H). exists a. rewrite E. destruct (snd (conv a)) as [y| | |]; cbn in H; try discriminate.
  injection H as -> _. reflexivity.
Qed.
Lemma blanket_der_any {T} c check (conv : any -> res T) d rem x : snd (t_blanket_from_der c check conv d) = Ok (rem, x) -> exists a, snd (t_any_from_der c d) = Ok (rem, a).
Proof.
  unfold t_blanket_from_der. rewrite snd_generic. intros H. apply rbind_inv in H as ([rem' a] & E & H). exists a. rewrite E.
  apply rbind_inv in H as (u & _ & H). apply rbind_inv in H as (y & _ & H). injection H as -> _. reflexivity.
Qed.
Lemma collection_any {T U} c tag form (of_list : list T -> U) p d rem x : snd (t_collection_from_der c tag form of_list p d) = Ok (rem, x) ->
  exists a, snd (t_any_from_der c d) = Ok (rem, a).
Proof.
  unfold t_collection_from_der. rewrite snd_generic. intros H. apply rbind_inv in H as ([rem' a] & E & H). apply trace_inv in E. exists a. rewrite E.
  do 2 (apply rbind_inv in H as (? & _ & H)). apply rbind_inv in H as (y & _ & H). injection H as -> _. reflexivity.
Qed.
Lemma types_progress {T} c (t : gty T) : progress (t_from_ber c t) /\ progress (t_from_der c t).
Proof.
  assert (X : forall i rem x, bytes_ok i -> blen i < 2 ^ 64 -> (snd (t_from_ber c t i) = Ok (rem, x) -> exists a, snd (t_any_from_ber c i) = Ok (rem, a))
    /\ (snd (t_from_der c t i) = Ok (rem, x) -> exists a, snd (t_any_from_der c i) = Ok (rem, a))).
  { intros i rem x B W. destruct t; cbn [t_from_ber t_from_der]; split; intros H; first [eapply blanket_any; exact H | eapply blanket_der_any; exact H | eapply collection_any; exact H]. }
  split; intros i rem x B W H; destruct (X i rem x B W) as [X1 X2].
  - destruct (X1 H) as [a A]. destruct (ber_any_shorter c i rem a B W A) as (H1 & H2 & _). auto.
  - destruct (X2 H) as [a A]. destruct (der_any_shorter c i rem a B W A) as (H1 & H2 & _). auto.
Qed.

Lemma within_generic {I O} c s (f : I -> logged (res O)) i : within (fst (f i)) (fst (trace_generic c s f i)).
Proof. destruct (generic_keeps c s f i) as (pre & rest & E). exists pre, rest. exact E. Qed.
Lemma within_trace {T} c s (f : bytes -> logged (res (bytes * T))) i : within (fst (f i)) (fst (trace c s f i)).
Proof. destruct (trace_keeps c s f i) as (pre & rest & E). exists pre, rest. exact E. Qed.
Lemma collection_within {T U} c tag form (of_list : list T -> U) p d : within (fst (t_any_from_der c d)) (fst (t_collection_from_der c tag form of_list p d)).
Proof.
  eapply within_trans; [apply (within_trace c AtType)|]. unfold t_collection_from_der. refine (within_trans _ _ _ _ (within_generic c AtType _ d)).
  apply within_bind.
Qed.

(** From slices: silence with the features off, and on success without [trace]; a refusal leaves a line; and the lines of reading the
    object without its type are among those written. *)
Theorem C101_slices_log (c : config) {T : Type} (t : gty T) (d : bytes) :
  (debugging c = false -> fst (t_from_ber c t d) = [] /\ fst (t_from_der c t d) = [])
  /\ (cf_trace c = false -> forall q, (snd (t_from_ber c t d) = Ok q -> fst (t_from_ber c t d) = []) /\ (snd (t_from_der c t d) = Ok q -> fst (t_from_der c t d) = []))
  /\ (debugging c = true -> (refused (snd (t_from_ber c t d)) -> fst (t_from_ber c t d) <> []) /\ (refused (snd (t_from_der c t d)) -> fst (t_from_der c t d) <> []))
  /\ within (fst (t_parse_ber_any c (from_slice d))) (fst (t_from_ber c t d))
  /\ within (fst (t_parse_der_any c (from_slice d))) (fst (t_from_der c t d)).
Proof.
  destruct (mute_types c t d) as [M1 M2]. unfold mute in M1, M2.
  split; [intros D; split; [apply M1 | apply M2]; left; exact D|].
  split; [intros D q; split; intros H; [apply M1 | apply M2]; right; eauto|].
  split; [intros D; split; (destruct t; cbn [t_from_ber t_from_der]; first [apply blanket_speaks; exact D | apply generic_speaks; exact D])|].
  split.
  - rewrite <- (any_keeps (t_parse_ber_any c)). destruct t; apply within_bind.
  - rewrite <- (any_keeps (t_parse_der_any c)). destruct t; cbn [t_from_der].
    + unfold t_blanket_from_der. refine (within_trans _ _ _ _ (within_generic c AtType _ d)). apply within_bind.
    + apply collection_within.
    + apply collection_within.
    + apply collection_within.
    + apply collection_within.
Qed.
Print Assumptions C101_slices_log.

(** The lines of the items of a collection are among those written too, up to the first item which is refused. *)
Theorem C101_slices_items (c : config) {T : Type} (cmp : T -> T -> comparison) (same : T -> T -> bool) (t : gty T) (d rem : bytes) (a : any) :
  bytes_ok d -> blen d < 2 ^ 64 -> h_constructed (any_header a) = true ->
  (parse_ber_any d = Ok (rem, a) -> exists l, items_written (t_from_ber c t) (any_data a) l
     /\ (h_tag (any_header a) = 16 -> within l (fst (t_from_ber c (GVec t) d)))
     /\ (h_tag (any_header a) = 17 -> within l (fst (t_from_ber c (GSetOf t) d)) /\ within l (fst (t_from_ber c (GBTreeSet cmp t) d)) /\ within l (fst (t_from_ber c (GHashSet same t) d))))
  /\ (parse_der_any d = Ok (rem, a) -> exists l, items_written (t_from_der c t) (any_data a) l
     /\ (h_tag (any_header a) = 16 -> within l (fst (t_from_der c (GVec t) d)))
     /\ (h_tag (any_header a) = 17 -> within l (fst (t_from_der c (GSetOf t) d)) /\ within l (fst (t_from_der c (GBTreeSet cmp t) d)) /\ within l (fst (t_from_der c (GHashSet same t) d)))).
Proof.
  intros B W C. destruct (types_progress c t) as [P1 P2].
  assert (Tg : forall n, h_tag (any_header a) = n -> assert_tag (any_header a) n = Ok tt) by (intros n <-; unfold assert_tag; rewrite N.eqb_refl; reflexivity).
  assert (Cn : assert_constructed (any_header a) = Ok tt) by (unfold assert_constructed; rewrite C; reflexivity).
  split; intros H.
  - destruct (any_from_ber c d W) as [E _]. rewrite H in E. destruct (ber_any_shorter c d rem a B W E) as (_ & _ & Ba & Wa).
    exists (fst (t_seq_items (t_from_ber c t) (any_data a))). split; [apply items_lines; auto; lia|].
    assert (X : forall n U (of_list : list T -> U), h_tag (any_header a) = n ->
      within (fst (t_seq_items (t_from_ber c t) (any_data a))) (fst (t_collection_try_from n of_list (t_from_ber c t) a))).
    { intros n U of_list N. unfold t_collection_try_from. rewrite (Tg n N), Cn. do 2 refine (within_trans _ _ _ _ (within_next (silent (Ok tt)) _ tt eq_refl)). apply within_bind. }
    assert (Y : forall U (conv : any -> logged (res U)), within (fst (conv a)) (fst (t_blanket_from_ber c conv d))).
    { intros U conv. unfold t_blanket_from_ber, rbind. rewrite E. destruct (snd (conv a)); cbn [fst]; [exists (fst (t_any_from_ber c d)), []; rewrite app_nil_r|eexists; eexists|eexists; eexists|exists (fst (t_any_from_ber c d)), []; rewrite app_nil_r]; reflexivity. }
    split; [intros N | intros N; split; [|split]]; (eapply within_trans; [|apply Y]); try (apply X; exact N).
    unfold t_btreeset_try_from. eapply within_trans; [|apply within_generic]. apply X. exact N.
  - destruct (any_from_der c d W) as [E K]. rewrite H in E. destruct (der_any_shorter c d rem a B W E) as (L & _ & Ba & Wa).
    exists (fst (t_seq_items (t_from_der c t) (any_data a))). split; [apply items_lines; auto; lia|].
    assert (X : forall n U form (of_list : list T -> U), h_tag (any_header a) = n ->
      within (fst (t_seq_items (t_from_der c t) (any_data a))) (fst (t_collection_from_der c n form of_list (t_from_der c t) d))).
    { intros n U form of_list N. unfold t_collection_from_der. refine (within_trans _ _ _ _ (within_generic c AtType _ d)).
      assert (Z : snd (trace c AtType (t_any_from_der c) d) = Ok (rem, a)).
      { rewrite snd_trace; [exact E|]. intros r x Q. rewrite E in Q. injection Q as <- <-. unfold blen. lia. }
      refine (within_trans _ _ _ _ (within_next _ _ _ Z)). rewrite (Tg n N). replace (if form then assert_constructed (any_header a) else Ok tt) with (@Ok unit tt) by (destruct form; auto).
      do 2 refine (within_trans _ _ _ _ (within_next (silent (Ok tt)) _ tt eq_refl)). apply within_bind. }
    split; [intros N | intros N; split; [|split]]; apply X; exact N.
Qed.
Print Assumptions C101_slices_items.

(** SEQUENCE of two integers, the second cut short. *)
Example C101_slices_case :
  let t := GVec (GLeaf _ TagInteger integer_codec) in
  let d := [48; 5; 2; 1; 5; 2; 9] in
  let debug := mk_config true false true in
  refused (snd (t_from_der debug t d))
  /\ fst (t_from_der debug t d)
     = [LMissing AtAny 0 9; LDump (spaced [2; 9]); LGenericFailed AtType; LGenericFailed AtType]
  /\ fst (t_from_ber debug t d) = [LMissing AtAny 0 9; LDump (spaced [2; 9]); LConversion]
  /\ t_from_ber (mk_config false false true) t [48; 3; 2; 1; 5] = ([], Ok ([], [[5]])).
Proof. cbv zeta. split; [left; eexists|repeat split]; vm_compute; reflexivity. Qed.
