(** Properties of object identifiers: C22, C23, C24, C25, C46, C47, C48, C49. *)
From Verif Require Import Base MHeader MEncode SHeader PArith PHeader PEncode MBer SBer PBer PIter
  MInt SInt PCodec PInt PropInt MSeg SSeg PropSeg MOid SOid POid.

(** ** C22: construction and iteration *)

Lemma encode_relative_subid ns : subids subid ns (encode_relative ns).
Proof. induction ns as [|n ns IH]; [constructor|]. cbn. constructor; [apply encode_arc_shortest|exact IH]. Qed.

Lemma arc_bits_encode ns mx :
  exists m, fold_left arc_bits_step (encode_relative ns) (mx, 0) = (m, 0)
    /\ forall limit, m <= limit <-> mx <= limit /\ Forall (fun n => 7 * N.of_nat (arc_octets n) <= limit) ns.
Proof.
  revert mx. induction ns as [|n ns IH]; intros mx.
  - exists mx. split; [reflexivity|]. intros. split; [split; [assumption|constructor]|tauto].
  - cbn [encode_relative flat_map]. rewrite fold_left_app, (arc_bits_subid n) by (apply encode_arc_shortest).
    destruct (IH (N.max mx (7 * blen (encode_arc n)))) as (m & E & L). exists m. split; [exact E|]. intros limit.
    rewrite L. unfold blen. rewrite encode_arc_length. split.
    + intros [H F]. split; [lia|]. constructor; [lia|exact F].
    + intros [H F]. inversion F; subst. split; [lia|assumption].
Qed.

Lemma arc_bits_limit ns :
  (64 <? fst (fold_left arc_bits_step (encode_relative ns) (0, 0))) = false <-> Forall (fun n => n < 2 ^ 63) ns.
Proof.
  destruct (arc_bits_encode ns 0) as (m & E & L). rewrite E. cbn [fst]. rewrite N.ltb_ge, L.
  assert (G : forall n, 7 * N.of_nat (arc_octets n) <= 64 <-> n < 2 ^ 63).
  { intros n. pose proof (arc_octets_le n 9 ltac:(lia)) as A. change (7 * N.of_nat 9) with 63 in A. lia. }
  split.
  - intros [_ F]. eapply Forall_impl; [|exact F]. intros n. apply G.
  - intros F. split; [lia|]. eapply Forall_impl; [|exact F]. intros n. apply G.
Qed.

Lemma below_63 ns : Forall (fun n => n < 2 ^ 63) ns -> Forall (below (Some (2 ^ 64))) ns.
Proof. apply Forall_impl. cbn. intros n H. eapply N.lt_trans; [exact H|]. reflexivity. Qed.

Lemma below_none ns : Forall (below None) ns.
Proof. apply Forall_forall. intros; exact I. Qed.

(** Which arc lists are accepted. *)
Theorem C22_from_accepts (s : list N) :
  ((exists o, oid_from s = inl o) <-> s = [0] \/ exists a b rest, s = a :: b :: rest /\ a < 7 /\ b < 40)
  /\ ((exists o, oid_from_relative s = inl o) <-> s <> []).
Proof.
  split.
  - destruct s as [|a [|b rest]]; cbn [oid_from].
    + split; [intros [o E]; discriminate|intros [E|(a & b & r & E & _)]; discriminate].
    + destruct (N.eqb_spec a 0) as [->|Ha]; split; eauto.
      * intros [o E]; discriminate.
      * intros [E|(x & y & r & E & _)]; [congruence|discriminate].
    + destruct (N.leb_spec 7 a), (N.leb_spec 40 b); cbn [orb]; split; try (intros [o E]; discriminate);
        try (intros [E|(x & y & r & E & H1 & H2)]; [discriminate|injection E as -> -> ->; lia]); intros; eauto 9.
  - destruct s; cbn [oid_from_relative]; split; [intros [o E]; discriminate|congruence|discriminate|eauto].
Qed.
Print Assumptions C22_from_accepts.

(** What the iterators return for every OID built from arcs whose first two fit in one octet. *)
Theorem C22_oid_arcs_partial (a b : N) (rest : list N) :
  a < 7 -> b < 40 -> 40 * a + b < 256 -> a :: b :: rest <> [0; 0] ->
  exists o, oid_from (a :: b :: rest) = inl o
    /\ (Forall (fun n => n < 2 ^ 63) rest -> oid_arcs o = Some (a :: b :: rest))
    /\ (Exists (fun n => 2 ^ 63 <= n) rest -> oid_arcs o = None)
    /\ oid_arcs_bigint o = a :: b :: rest.
Proof.
  intros Ha Hb Hc Hne. cbn [oid_from].
  destruct (N.leb_spec 7 a), (N.leb_spec 40 b); try lia. cbn [orb]. eexists. split; [reflexivity|].
  rewrite (N.mul_comm a 40), (N.mod_small (40 * a + b)) by exact Hc.
  assert (D1 : (40 * a + b) / 40 = a) by lia. assert (D2 : (40 * a + b) mod 40 = b) by lia.
  assert (Z : (40 * a + b =? 0) && (length (encode_relative rest) =? 0)%nat = false).
  { destruct (N.eqb_spec (40 * a + b) 0); [|reflexivity]. cbn [andb]. apply Nat.eqb_neq. intros L.
    assert (a = 0 /\ b = 0) as [-> ->] by lia.
    pose proof (subids_length subid rest _ subid_nonempty (encode_relative_subid rest)) as L2.
    destruct rest; [congruence|cbn [length] in L2; lia]. }
  assert (I : forall shl7 limit, shl7_good shl7 limit -> Forall (below limit) rest ->
     sub_items shl7 (mk_oid (40 * a + b :: encode_relative rest) false) = a :: b :: rest).
  { intros shl7 limit Hg Hl.
    rewrite (sub_items_absolute shl7 limit _ (40 * a + b) rest (encode_relative rest)) by (auto using encode_relative_subid).
    rewrite Z, D1, D2. reflexivity. }
  unfold oid_arcs, oid_iter, max_arc_bits, oid_arcs_bigint. cbn [oid_relative oid_asn1 tl].
  pose proof (arc_bits_limit rest) as L. split; [|split].
  - intros F. rewrite (proj2 L F). rewrite (I _ _ shl7_u64_good (below_63 _ F)). reflexivity.
  - intros F. destruct (64 <? _); [reflexivity|]. pose proof (proj1 L eq_refl) as G. rewrite Exists_exists in F.
    destruct F as (x & Hx & Hx2). rewrite Forall_forall in G. specialize (G x Hx). lia.
  - apply (I _ _ shl7_big_good (below_none _)).
Qed.
Print Assumptions C22_oid_arcs_partial.

Theorem C22_relative_arcs (s : list N) :
  s <> [] -> exists o, oid_from_relative s = inl o
    /\ (Forall (fun n => n < 2 ^ 63) s -> oid_arcs o = Some s)
    /\ (Exists (fun n => 2 ^ 63 <= n) s -> oid_arcs o = None)
    /\ oid_arcs_bigint o = s.
Proof.
  intros Hs. destruct s as [|x s]; [congruence|]. cbn [oid_from_relative]. set (l := x :: s). eexists. split; [reflexivity|].
  unfold oid_arcs, oid_iter, max_arc_bits, oid_arcs_bigint. cbn [oid_relative oid_asn1]. pose proof (arc_bits_limit l) as L.
  assert (I : forall shl7 limit, shl7_good shl7 limit -> Forall (below limit) l -> sub_items shl7 (mk_oid (encode_relative l) true) = l).
  { intros shl7 limit Hg Hl. eapply sub_items_relative; eauto. apply encode_relative_subid. }
  split; [|split].
  - intros F. rewrite (proj2 L F). rewrite (I _ _ shl7_u64_good (below_63 _ F)). reflexivity.
  - intros F. destruct (64 <? _); [reflexivity|]. pose proof (proj1 L eq_refl) as G. rewrite Exists_exists in F.
    destruct F as (y & Hy & Hy2). rewrite Forall_forall in G. specialize (G y Hy). lia.
  - apply (I _ _ shl7_big_good (below_none _)).
Qed.
Print Assumptions C22_relative_arcs.

Lemma sub_decode_size shl7 acc bs : bs <> [] -> (1 <= snd (sub_decode shl7 acc bs) <= length bs)%nat.
Proof.
  revert acc. induction bs as [|b bs IH]; intros acc H; [congruence|]. cbn [sub_decode].
  destruct (N.shiftr b 7 =? 0); [cbn; lia|]. destruct bs as [|c bs]; [cbn; lia|].
  specialize (IH (shl7 acc + N.land b 127) ltac:(discriminate)).
  destruct (sub_decode shl7 _ (c :: bs)). cbn [snd length] in *. lia.
Qed.

Definition sub_measure (s : sub_iter) : nat :=
  (length (oid_asn1 (sub_oid s)) - sub_pos s + (if sub_first s then 0 else 1))%nat.
Definition sub_valid (s : sub_iter) : Prop :=
  (sub_pos s <= length (oid_asn1 (sub_oid s)))%nat.

Lemma sub_next_valid shl7 s v s' :
  sub_valid s -> sub_next shl7 s = (Some v, s') -> sub_valid s' /\ sub_oid s' = sub_oid s /\ (sub_measure s' < sub_measure s)%nat.
Proof.
  unfold sub_valid, sub_measure. intros Hv E. unfold sub_next in E.
  destruct (Nat.eqb_spec (sub_pos s) (length (oid_asn1 (sub_oid s)))) as [|Hne]; [discriminate|].
  assert (Hsk : skipn (sub_pos s) (oid_asn1 (sub_oid s)) <> []).
  { intros E0. apply (f_equal (@length N)) in E0. rewrite skipn_length in E0. cbn in E0. lia. }
  pose proof (sub_decode_size shl7 0 _ Hsk) as Hd. rewrite skipn_length in Hd.
  destruct (sub_decode shl7 0 (skipn (sub_pos s) (oid_asn1 (sub_oid s)))) as [x n]. cbn [snd] in Hd.
  assert (C : (Some x, mk_sub (sub_oid s) (sub_pos s + n) (sub_first s)) = (Some v, s') ->
    (sub_pos s' <= length (oid_asn1 (sub_oid s')))%nat /\ sub_oid s' = sub_oid s /\
    (length (oid_asn1 (sub_oid s')) - sub_pos s' + (if sub_first s' then 0 else 1)
     < length (oid_asn1 (sub_oid s)) - sub_pos s + (if sub_first s then 0 else 1))%nat).
  { intros C. injection C as _ <-. cbn [sub_pos sub_oid sub_first]. destruct (sub_first s); (split; [lia|split; [reflexivity|lia]]). }
  destruct (negb (oid_relative (sub_oid s))); [|exact (C E)].
  destruct (negb (sub_first s)) eqn:F.
  - injection E as _ <-. cbn [sub_pos sub_oid sub_first]. destruct (sub_first s); [discriminate|]. split; [lia|split; [reflexivity|lia]].
  - destruct (Nat.eqb_spec (sub_pos s) 0) as [Hz|]; [|exact (C E)].
    destruct ((hd 0 (oid_asn1 (sub_oid s)) =? 0) && (length (oid_asn1 (sub_oid s)) =? 1)%nat); [discriminate|].
    injection E as _ <-. cbn [sub_pos sub_oid sub_first]. destruct (sub_first s); [|discriminate]. split; [lia|split; [reflexivity|lia]].
Qed.

(** The iterator is fused, for all contents; and it stops: more steps find nothing more. *)
Theorem C22_iterator_fused (shl7 : N -> N) (s s' : sub_iter) :
  sub_next shl7 s = (None, s') -> sub_next shl7 s' = (None, s').
Proof.
  intros E. unfold sub_next in E.
  destruct (Nat.eqb_spec (sub_pos s) (length (oid_asn1 (sub_oid s)))) as [Hp|Hne].
  - injection E as <-. unfold sub_next. rewrite Hp, Nat.eqb_refl. reflexivity.
  - destruct (sub_decode shl7 0 (skipn (sub_pos s) (oid_asn1 (sub_oid s)))) as [x n].
    destruct (negb (oid_relative (sub_oid s))); [|discriminate].
    destruct (negb (sub_first s)); [discriminate|]. destruct (sub_pos s =? 0)%nat; [|discriminate].
    destruct ((hd 0 (oid_asn1 (sub_oid s)) =? 0) && (length (oid_asn1 (sub_oid s)) =? 1)%nat) eqn:C; [|discriminate].
    injection E as <-. apply andb_prop in C as [_ C]. apply Nat.eqb_eq in C.
    unfold sub_next. cbn [sub_pos sub_oid]. rewrite C. reflexivity.
Qed.
Print Assumptions C22_iterator_fused.

Theorem C22_iterator_stops (shl7 : N -> N) (o : oid) (fuel : nat) :
  (length (oid_asn1 o) + 2 <= fuel)%nat -> sub_collect shl7 fuel (sub_new o) = sub_items shl7 o.
Proof.
  assert (G : forall f1 f2 s, sub_valid s -> (sub_measure s < f1)%nat -> (sub_measure s < f2)%nat ->
     sub_collect shl7 f1 s = sub_collect shl7 f2 s).
  { induction f1 as [|f1 IH]; intros f2 s Hv H1 H2; [lia|]. destruct f2 as [|f2]; [lia|]. cbn [sub_collect].
    destruct (sub_next shl7 s) as [[v|] s'] eqn:E; [|reflexivity].
    apply sub_next_valid in E as (V & _ & L); [|exact Hv]. f_equal. apply IH; [exact V|lia|lia]. }
  intros H. unfold sub_items. apply G; unfold sub_valid, sub_measure, sub_new; cbn; lia.
Qed.
Print Assumptions C22_iterator_stops.

(** The arcs 0.0 do not come back. *)
Theorem C22_zero_zero_refuted :
  exists o, oid_from [0; 0] = inl o /\ oid_arcs o = Some [0].
Proof. eexists. split; vm_compute; reflexivity. Qed.
Print Assumptions C22_zero_zero_refuted.

(** First arcs up to 6 are accepted, and the first octet wraps. *)
Theorem C22_wrap_refuted :
  exists o, oid_from [6; 39; 1] = inl o /\ oid_arcs o = Some [0; 23; 1].
Proof. eexists. split; vm_compute; reflexivity. Qed.
Print Assumptions C22_wrap_refuted.

Example C22_case : exists o, oid_from [1; 2; 840; 113549; 2 ^ 63 - 1] = inl o
  /\ oid_asn1 o = [42; 134; 72; 134; 247; 13; 255; 255; 255; 255; 255; 255; 255; 255; 127]
  /\ oid_arcs o = Some [1; 2; 840; 113549; 2 ^ 63 - 1]
  /\ Forall (fun n => n < 2 ^ 63) [840; 113549; 2 ^ 63 - 1].
Proof. eexists. split; [vm_compute; reflexivity|]. split; [vm_compute; reflexivity|]. split; [vm_compute; reflexivity|]. repeat constructor. Qed.

(** ** C23: minimal encoding *)

Theorem C23_arc_minimal (s : list N) (o : oid) :
  (oid_from s = inl o -> 2 <= blen s -> nth 0 s 0 <= 2 -> oid_relative o = false /\ oid_contents s (oid_asn1 o))
  /\ (oid_from_relative s = inl o -> oid_relative o = true /\ subids subid_shortest s (oid_asn1 o)).
Proof.
  split.
  - destruct s as [|a [|b rest]]; [intros; discriminate|unfold blen; cbn; intros; lia|]. cbn [oid_from nth].
    destruct (N.leb_spec 7 a), (N.leb_spec 40 b); cbn [orb]; try discriminate. intros E _ Ha. injection E as <-.
    cbn [oid_relative oid_asn1]. split; [reflexivity|]. rewrite N.mod_small by lia.
    exists a, b, rest. split; [reflexivity|]. split; [exact Ha|]. split; [lia|].
    rewrite (N.mul_comm a). change (40 * a + b :: encode_relative rest) with ([40 * a + b] ++ encode_relative rest).
    constructor; [|apply encode_relative_subids]. apply subid_one. lia.
  - destruct s as [|a s]; [discriminate|]. cbn [oid_from_relative]. intros E. injection E as <-. split; [reflexivity|].
    apply encode_relative_subids.
Qed.
Print Assumptions C23_arc_minimal.

Lemma subids_inj ns ms b : subids subid_shortest ns b -> subids subid_shortest ms b -> ns = ms.
Proof.
  intros A B. destruct (subids_prefix ns b ms b [] A B) as (ks & -> & K); [rewrite app_nil_r; reflexivity|].
  inversion K as [|n ks' b' bs' Hn _ E1 E2]; subst; [rewrite app_nil_r; reflexivity|].
  destruct Hn as [Hn _]. apply subid_nonempty in Hn. apply app_eq_nil in E2 as [-> _]. cbn in Hn. lia.
Qed.

Theorem C23_injective (s s' : list N) (o : oid) :
  (oid_from s = inl o -> oid_from s' = inl o -> 2 <= blen s -> 2 <= blen s' -> nth 0 s 0 <= 2 -> nth 0 s' 0 <= 2 -> s = s')
  /\ (oid_from_relative s = inl o -> oid_from_relative s' = inl o -> s = s').
Proof.
  split.
  - intros E E' L L' A A'. pose proof (fun x => proj1 (C23_arc_minimal s x)) as M. pose proof (fun x => proj1 (C23_arc_minimal s' x)) as M'.
    destruct (M o E L A) as [_ (a & b & r & -> & H1 & _ & S1)]. destruct (M' o E' L' A') as [_ (a' & b' & r' & -> & H1' & _ & S1')].
    assert (B : b < 40 /\ b' < 40).
    { clear - E E'. cbn [oid_from] in *. destruct (N.leb_spec 7 a), (N.leb_spec 40 b), (N.leb_spec 7 a'), (N.leb_spec 40 b'); cbn in *; try discriminate. auto. }
    pose proof (subids_inj _ _ _ S1 S1') as Q. injection Q as Q ->. assert (a = a' /\ b = b') as [-> ->] by lia. reflexivity.
  - intros E E'. destruct (proj2 (C23_arc_minimal s o) E) as [_ S1]. destruct (proj2 (C23_arc_minimal s' o) E') as [_ S2].
    exact (subids_inj _ _ _ S1 S2).
Qed.
Print Assumptions C23_injective.

(** One octet 0 stands for two arc lists, and so does each wrapped first octet. *)
Theorem C23_collision_refuted :
  (exists o, oid_from [0] = inl o /\ oid_from [0; 0] = inl o)
  /\ (exists o, oid_from [6; 39] = inl o /\ oid_from [0; 23] = inl o).
Proof. split; eexists; split; vm_compute; reflexivity. Qed.
Print Assumptions C23_collision_refuted.

Example C23_case : oid_from [2; 5; 128] = inl (mk_oid [85; 129; 0] false) /\ 2 <= blen [2; 5; 128] /\ nth 0 [2; 5; 128] 0 <= 2.
Proof. vm_compute. repeat split; discriminate. Qed.

(** ** C24: prefixes *)

Lemma is_prefix_iff p l : is_prefix p l = true <-> exists x, l = p ++ x.
Proof.
  revert l. induction p as [|a p IH]; intros l; cbn [is_prefix].
  - split; [intros _; exists l; reflexivity|reflexivity].
  - destruct l as [|b l].
    + split; [discriminate|intros [x E]; discriminate].
    + rewrite andb_true_iff, N.eqb_eq, IH. split.
      * intros [-> [x ->]]. exists x. reflexivity.
      * intros [x E]. injection E as -> ->. eauto.
Qed.

Lemma starts_with_iff o n : oid_starts_with o n = true <-> exists x, oid_asn1 o = oid_asn1 n ++ x.
Proof.
  unfold oid_starts_with. rewrite andb_true_iff, is_prefix_iff. split; [tauto|]. intros [x E]. split; [|eauto].
  apply Nat.leb_le. rewrite E, app_length. lia.
Qed.

Theorem C24_starts_with_partial (s t : list N) (o n : oid) :
  (oid_from s = inl o -> oid_from t = inl n -> 2 <= blen s -> 2 <= blen t -> nth 0 s 0 <= 2 -> nth 0 t 0 <= 2 ->
   (oid_starts_with o n = true <-> exists u, s = t ++ u))
  /\ (oid_from_relative s = inl o -> oid_from_relative t = inl n ->
      (oid_starts_with o n = true <-> exists u, s = t ++ u)).
Proof.
  split.
  - intros E E' L L' A A'.
    destruct (proj1 (C23_arc_minimal s o) E L A) as [_ (a & b & r & -> & H1 & _ & S1)].
    destruct (proj1 (C23_arc_minimal t n) E' L' A') as [_ (a' & b' & r' & -> & H1' & _ & S1')].
    assert (B : b < 40 /\ b' < 40).
    { clear - E E'. cbn [oid_from] in *. destruct (N.leb_spec 7 a), (N.leb_spec 40 b), (N.leb_spec 7 a'), (N.leb_spec 40 b'); cbn in *; try discriminate. auto. }
    rewrite starts_with_iff. split.
    + intros [x Ex]. destruct (subids_prefix _ _ _ _ _ S1' S1 Ex) as (ks & Q & _). cbn in Q. injection Q as Q ->.
      assert (a = a' /\ b = b') as [-> ->] by lia. exists ks. reflexivity.
    + intros [u Eu]. cbn in Eu. injection Eu as -> -> ->.
      cbn [oid_from] in E, E'. destruct ((7 <=? a') || (40 <=? b')); [discriminate|]. injection E as <-. injection E' as <-.
      cbn [oid_asn1]. unfold encode_relative. rewrite flat_map_app. exists (flat_map encode_arc u). reflexivity.
  - intros E E'. destruct s as [|x s]; [discriminate|]. destruct t as [|y t]; [discriminate|].
    cbn [oid_from_relative] in *. injection E as <-. injection E' as <-. rewrite starts_with_iff. cbn [oid_asn1]. split.
    + intros [z Ez]. destruct (subids_prefix _ _ _ _ _ (encode_relative_subids (y :: t)) (encode_relative_subids (x :: s)) Ez) as (ks & Q & _). eauto.
    + intros [u Eu]. change (exists z, flat_map encode_arc (x :: s) = flat_map encode_arc (y :: t) ++ z).
      rewrite Eu, flat_map_app. eauto.
Qed.
Print Assumptions C24_starts_with_partial.

(** 0 is a prefix of 0.5 as arcs but not by the test; 0.0 counts as one arc when iterated; a relative OID
    is a prefix of an absolute one. *)
Theorem C24_prefix_refuted :
  (exists o n, oid_from [0; 5] = inl o /\ oid_from [0] = inl n /\ oid_starts_with o n = false
     /\ oid_arcs o = Some [0; 5] /\ oid_arcs n = Some [0])
  /\ (exists o n, oid_from [1; 2; 3] = inl o /\ oid_from_relative [42] = inl n /\ oid_starts_with o n = true
     /\ oid_arcs o = Some [1; 2; 3] /\ oid_arcs n = Some [42]).
Proof. split; eexists; eexists; repeat split; vm_compute; reflexivity. Qed.
Print Assumptions C24_prefix_refuted.

(** Lists which [Oid::from] does not tell apart: 0 and 0.0; 6.16 and 0.0 to 6.39 and 0.23.  [same_as] is the second of each pair. *)
Definition same_as (s : list N) : list N :=
  match s with
  | [x] => if x =? 0 then [0; 0] else s
  | x :: b :: r => if (x =? 6) && (16 <=? b) then 0 :: b - 16 :: r else s
  | _ => s
  end.
Lemma same_as_spec s o : oid_from s = inl o -> oid_relative o = false /\ exists a b r, same_as s = a :: b :: r /\ a < 7 /\ b < 40 /\ 40 * a + b < 256
  /\ oid_asn1 o = (40 * a + b) :: encode_relative r.
Proof.
  destruct s as [|a [|b r]]; [discriminate| |].
  - cbn [oid_from same_as]. destruct (N.eqb_spec a 0); [|discriminate]. intros E. injection E as <-. split; [reflexivity|]. exists 0, 0, []. repeat split; lia.
  - cbn [oid_from same_as]. destruct (N.leb_spec 7 a), (N.leb_spec 40 b); cbn [orb]; try discriminate. intros E. injection E as <-. split; [reflexivity|]. cbn [oid_asn1].
    destruct (N.eqb_spec a 6) as [->|Ha], (N.leb_spec 16 b); cbn [andb].
    + exists 0, (b - 16), r. repeat split; try lia. f_equal. replace (6 * 40 + b) with (1 * 256 + (b - 16)) by lia. rewrite N.add_comm, N.mod_add by lia. apply N.mod_small. lia.
    + exists 6, b, r. repeat split; try lia. f_equal. rewrite N.mod_small by lia. lia.
    + exists a, b, r. repeat split; try lia. f_equal. rewrite N.mod_small by lia. lia.
    + exists a, b, r. repeat split; try lia. f_equal. rewrite N.mod_small by lia. lia.
Qed.
Lemma relative_prefix r r' : (exists x, encode_relative r = encode_relative r' ++ x) <-> exists u, r = r' ++ u.
Proof.
  split.
  - intros [x E]. destruct (subids_prefix _ _ _ _ _ (encode_relative_subids r') (encode_relative_subids r) E) as (ks & -> & _). eauto.
  - intros [u ->]. unfold encode_relative. rewrite flat_map_app. eauto.
Qed.

(** Two absolute identifiers are equal exactly when their lists are the same up to these pairs. *)
Theorem C23_exact (s t : list N) (o n : oid) : oid_from s = inl o -> oid_from t = inl n -> (o = n <-> same_as s = same_as t).
Proof.
  intros E F. destruct (same_as_spec s o E) as (Ro & a & b & r & -> & Ha & Hb & Hc & Eo). destruct (same_as_spec t n F) as (Rn & a' & b' & r' & -> & Ha' & Hb' & Hc' & En).
  destruct o as [d q], n as [d' q']. cbn [oid_relative oid_asn1] in *. subst q q' d d'. split.
  - intros Q. injection Q as Q Q'. assert (a = a' /\ b = b') as [-> ->] by lia.
    rewrite (subids_inj r r' (encode_relative r)); [reflexivity | apply encode_relative_subids | rewrite Q'; apply encode_relative_subids].
  - intros Q. injection Q as -> -> ->. reflexivity.
Qed.
Print Assumptions C23_exact.

(** So is the test for a prefix; between an absolute and a relative identifier the first two arcs of the one, of the three roots of
    the standard, count as one arc of the other. *)
Theorem C24_exact (s t : list N) (o n : oid) : oid_from s = inl o ->
  (oid_from t = inl n -> (oid_starts_with o n = true <-> exists u, same_as s = same_as t ++ u))
  /\ (oid_from_relative t = inl n -> nth 0 (same_as s) 0 <= 2 -> exists a b r, same_as s = a :: b :: r
      /\ (oid_starts_with o n = true <-> exists u, (40 * a + b) :: r = t ++ u)
      /\ (oid_starts_with n o = true <-> exists u, t = (40 * a + b) :: r ++ u)).
Proof.
  intros E. destruct (same_as_spec s o E) as (_ & a & b & r & -> & Ha & Hb & Hc & Eo). split.
  - intros F. destruct (same_as_spec t n F) as (_ & a' & b' & r' & -> & Ha' & Hb' & Hc' & En). rewrite starts_with_iff, Eo, En. split.
    + intros [x Q]. injection Q as Q Q'. assert (a = a' /\ b = b') as [-> ->] by lia. destruct (proj1 (relative_prefix r r') (ex_intro _ x Q')) as [u ->]. exists u. reflexivity.
    + intros [u Q]. injection Q as -> -> ->. destruct (proj2 (relative_prefix (r' ++ u) r')) as [x Ex]; [eauto|]. rewrite Ex. exists x. reflexivity.
  - intros F Hn. cbn [nth] in Hn. exists a, b, r. split; [reflexivity|].
    assert (En : oid_asn1 n = encode_relative t) by (destruct t; [discriminate|]; cbn [oid_from_relative] in F; injection F as <-; reflexivity).
    assert (One : (40 * a + b) :: encode_relative r = encode_relative ((40 * a + b) :: r)).
    { unfold encode_relative. cbn [flat_map]. replace (encode_arc (40 * a + b)) with [40 * a + b]; [reflexivity|].
      assert (L : 40 * a + b < 128) by lia. clear - L.
      assert (V : forall k, k < 128 -> encode_arc k = [k]).
      { intros k Hk. assert (B : forallb (fun k => if list_eq_dec N.eq_dec (encode_arc k) [k] then true else false) (map N.of_nat (seq 0 128)) = true) by (vm_compute; reflexivity).
        rewrite forallb_forall in B. assert (K : In k (map N.of_nat (seq 0 128))) by (apply in_map_iff; exists (N.to_nat k); split; [lia | apply in_seq; lia]).
        specialize (B k K). destruct (list_eq_dec N.eq_dec (encode_arc k) [k]); [assumption | discriminate]. }
      symmetry. apply V. exact L. }
    rewrite !starts_with_iff, Eo, En, One. split; [apply relative_prefix|].
    rewrite (relative_prefix t ((40 * a + b) :: r)). reflexivity.
Qed.
Print Assumptions C24_exact.

Example C24_exact_case :
  exists o n m k, oid_from [0] = inl o /\ oid_from [0; 0; 7] = inl n /\ oid_from [6; 16; 7] = inl m /\ oid_from_relative [42; 3; 9] = inl k
    /\ o <> n /\ n = m /\ oid_starts_with m o = true
    /\ (exists p, oid_from [1; 2; 3] = inl p /\ oid_starts_with k p = true /\ oid_starts_with p k = false).
Proof.
  do 4 eexists. repeat (split; [vm_compute; reflexivity|]). split; [discriminate|]. split; [vm_compute; reflexivity|]. split; [vm_compute; reflexivity|].
  eexists. split; [vm_compute; reflexivity|]. split; vm_compute; reflexivity.
Qed.

Example C24_case :
  exists o n m, oid_from [1; 2; 840; 1] = inl o /\ oid_from [1; 2; 840] = inl n /\ oid_from [1; 2; 84] = inl m
    /\ oid_starts_with o n = true /\ oid_starts_with o m = false.
Proof. eexists; eexists; eexists; repeat split; vm_compute; reflexivity. Qed.

(** ** C25: text *)

Theorem C25_text_is_dotted (o : oid) (arcs : list N) :
  oid_arcs o = Some arcs -> arcs <> [] -> dotted arcs (to_id_string o).
Proof. intros E Hn. unfold to_id_string. rewrite E. apply join_dotted. exact Hn. Qed.
Print Assumptions C25_text_is_dotted.

(** Parsing dotted text is building from the numbers in it. *)
Theorem C25_from_dotted (arcs : list N) (text : list N) :
  dotted arcs text -> Forall (fun n => n < 2 ^ 64) arcs -> oid_from_str text = oid_from arcs.
Proof. intros D F. unfold oid_from_str. rewrite (parse_dotted (2 ^ 64) arcs text D F). reflexivity. Qed.
Print Assumptions C25_from_dotted.

(** What [FromStr] accepts: numerals below 2^64, leading zeros and plus signs included. *)
Theorem C25_from_str_accept (text : list N) (o : oid) :
  oid_from_str text = inl o <->
  exists arcs, dotted_numerals arcs text /\ Forall (fun n => n < 2 ^ 64) arcs /\ oid_from arcs = inl o.
Proof.
  unfold oid_from_str. assert (A := fun ns => all_uint_iff (2 ^ 64) eq_refl (length text) text ns (le_n _)).
  destruct (all_some _) as [ns|].
  - destruct (proj1 (A ns) eq_refl) as [D F]. split; [intros E; exists ns; auto|].
    intros (arcs & D' & F' & E). assert (Some ns = Some arcs) by (apply A; auto). congruence.
  - split; [discriminate|]. intros (arcs & D & F & _). assert (None = Some arcs) by (apply A; auto). discriminate.
Qed.
Print Assumptions C25_from_str_accept.

Lemma lt_63_64 n : n < 2 ^ 63 -> n < 2 ^ 64.
Proof. intros H. eapply N.lt_trans; [exact H|]. reflexivity. Qed.

Lemma mod_facts a b : a < 7 -> b < 40 -> (a * 40 + b) mod 256 / 40 < 7 /\ (a * 40 + b) mod 256 mod 40 < 40
  /\ (((a * 40 + b) mod 256 / 40) * 40 + (a * 40 + b) mod 256 mod 40) mod 256 = (a * 40 + b) mod 256.
Proof. intros. lia. Qed.

(** Default features: arcs below 2^63. *)
Theorem C25_text_roundtrip_partial (s : list N) (o : oid) :
  oid_from s = inl o -> Forall (fun n => n < 2 ^ 63) (tl (tl s)) -> oid_from_str (to_id_string o) = inl o.
Proof.
  intros E F. destruct s as [|a [|b rest]]; [discriminate| |].
  - cbn [oid_from] in E. destruct (a =? 0); [|discriminate]. injection E as <-. vm_compute. reflexivity.
  - cbn [oid_from tl] in E, F. destruct (N.leb_spec 7 a), (N.leb_spec 40 b); cbn [orb] in E; try discriminate. injection E as <-.
    destruct (mod_facts a b) as (M1 & M2 & M3); [assumption|assumption|]. set (c := (a * 40 + b) mod 256) in *.
    unfold to_id_string, oid_arcs, oid_iter, max_arc_bits. cbn [oid_relative oid_asn1 tl].
    rewrite (proj2 (arc_bits_limit rest) F).
    rewrite (sub_items_absolute shl7_u64 (Some (2 ^ 64)) _ c rest (encode_relative rest));
      try reflexivity; [|apply shl7_u64_good|apply encode_relative_subid|apply below_63; exact F].
    destruct ((c =? 0) && (length (encode_relative rest) =? 0)%nat) eqn:Z.
    + apply andb_prop in Z as [Z1 Z2]. apply N.eqb_eq in Z1. apply Nat.eqb_eq in Z2. rewrite Z1.
      destruct (encode_relative rest); [|discriminate]. vm_compute. reflexivity.
    + rewrite (C25_from_dotted (c / 40 :: c mod 40 :: rest)).
      * cbn [oid_from]. destruct (N.leb_spec 7 (c / 40)), (N.leb_spec 40 (c mod 40)); try lia. cbn [orb]. rewrite M3. reflexivity.
      * apply join_dotted. discriminate.
      * constructor; [lia|]. constructor; [lia|]. eapply Forall_impl; [|exact F]. intros n. apply lt_63_64.
Qed.
Print Assumptions C25_text_roundtrip_partial.

(** Feature [bigint]: all 64-bit arcs. *)
Theorem C25_text_roundtrip_bigint (s : list N) (o : oid) :
  oid_from s = inl o -> Forall (fun n => n < 2 ^ 64) s -> oid_from_str (to_id_string_bigint o) = inl o.
Proof.
  intros E F. destruct s as [|a [|b rest]]; [discriminate| |].
  - cbn [oid_from] in E. destruct (a =? 0); [|discriminate]. injection E as <-. vm_compute. reflexivity.
  - inversion F as [|? ? _ F1]; subst. inversion F1 as [|? ? _ F2]; subst.
    cbn [oid_from] in E. destruct (N.leb_spec 7 a), (N.leb_spec 40 b); cbn [orb] in E; try discriminate. injection E as <-.
    destruct (mod_facts a b) as (M1 & M2 & M3); [assumption|assumption|]. set (c := (a * 40 + b) mod 256) in *.
    unfold to_id_string_bigint, oid_arcs_bigint.
    rewrite (sub_items_absolute shl7_big None _ c rest (encode_relative rest));
      try reflexivity; [|apply shl7_big_good|apply encode_relative_subid|apply below_none].
    destruct ((c =? 0) && (length (encode_relative rest) =? 0)%nat) eqn:Z.
    + apply andb_prop in Z as [Z1 Z2]. apply N.eqb_eq in Z1. apply Nat.eqb_eq in Z2. rewrite Z1.
      destruct (encode_relative rest); [|discriminate]. vm_compute. reflexivity.
    + rewrite (C25_from_dotted (c / 40 :: c mod 40 :: rest)).
      * cbn [oid_from]. destruct (N.leb_spec 7 (c / 40)), (N.leb_spec 40 (c mod 40)); try lia. cbn [orb]. rewrite M3. reflexivity.
      * apply join_dotted. discriminate.
      * constructor; [lia|]. constructor; [lia|]. exact F2.
Qed.
Print Assumptions C25_text_roundtrip_bigint.

(** Default features, otherwise: the contents octets, each as two lower-case hexadecimal digits, with a space
    between them. *)
Definition hex_alphabet : list N := [48; 49; 50; 51; 52; 53; 54; 55; 56; 57; 97; 98; 99; 100; 101; 102].
Definition two_digits (b : N) (s : list N) : Prop :=
  exists x y c d, b = 16 * N.of_nat x + N.of_nat y /\ nth_error hex_alphabet x = Some c /\ nth_error hex_alphabet y = Some d /\ s = [c; d].
Inductive hex_text : bytes -> list N -> Prop :=
| hx_none : hex_text [] []
| hx_last b s : two_digits b s -> hex_text [b] s
| hx_more b s r t : two_digits b s -> r <> [] -> hex_text r t -> hex_text (b :: r) (s ++ 32 :: t).

Lemma hex_digit_char n : n < 16 -> nth_error hex_alphabet (N.to_nat n) = Some (hex_digit n).
Proof.
  intros H. assert (In n [0; 1; 2; 3; 4; 5; 6; 7; 8; 9; 10; 11; 12; 13; 14; 15]) as I by (cbn [In]; lia).
  cbn [In] in I. repeat (destruct I as [<- |I]; [reflexivity|]). contradiction.
Qed.
Lemma hex2_digits b : b < 256 -> two_digits b (hex2 b).
Proof.
  intros H. exists (N.to_nat (b / 16)), (N.to_nat (b mod 16)), (hex_digit (b / 16)), (hex_digit (b mod 16)).
  rewrite !hex_digit_char by lia. split; [rewrite !N2Nat.id; lia|]. auto.
Qed.

Theorem C25_hex_text (o : oid) : oid_arcs o = None -> bytes_ok (oid_asn1 o) -> hex_text (oid_asn1 o) (to_id_string o).
Proof.
  intros E. unfold to_id_string. rewrite E. clear E. generalize (oid_asn1 o). intros bs H.
  induction H as [|b bs Hb H IH]; [constructor|]. destruct bs as [|b' bs].
  - apply hx_last, hex2_digits. exact Hb.
  - change (hex_text (b :: b' :: bs) (hex2 b ++ 32 :: hex_spaced (b' :: bs))). apply hx_more; [apply hex2_digits; exact Hb|discriminate|exact IH].
Qed.
Print Assumptions C25_hex_text.

(** No two contents have the same text. *)
Theorem C25_hex_injective (a b : bytes) (s : list N) : hex_text a s -> hex_text b s -> a = b.
Proof.
  assert (D : forall x y s t u v, two_digits x s -> two_digits y t -> s ++ u = t ++ v -> x = y /\ u = v).
  { assert (Q : forall i j c, nth_error hex_alphabet i = Some c -> nth_error hex_alphabet j = Some c -> i = j).
    { assert (ND : NoDup hex_alphabet) by (unfold hex_alphabet; repeat constructor; cbn [In]; lia).
      intros i j c Hi Hj. rewrite NoDup_nth_error in ND. apply ND; [apply nth_error_Some|]; congruence. }
    intros x y s' t' u v (x1 & x2 & c & d & -> & X1 & X2 & ->) (y1 & y2 & e & f & -> & Y1 & Y2 & ->) E.
    injection E as <- <- ->. rewrite (Q _ _ _ X1 Y1), (Q _ _ _ X2 Y2). auto. }
  intros H. revert b. induction H as [|x s X|x s r t X Hr H IH]; intros b Hb.
  - inversion Hb as [E1 E2|y u Y E1 E2|y u r t Y Hr Ht E1 E2]; [reflexivity| |];
      destruct Y as (? & ? & ? & ? & _ & _ & _ & E); [congruence|]. rewrite E in E2. discriminate E2.
  - inversion Hb as [E1 E2|y u Y E1 E2|y u r t Y Hr Ht E1 E2]; subst.
    + destruct X as (? & ? & ? & ? & _ & _ & _ & E). discriminate E.
    + destruct (D _ _ _ _ [] [] X Y eq_refl) as [-> _]. reflexivity.
    + exfalso. destruct X as (? & ? & ? & ? & _ & _ & _ & E). destruct Y as (? & ? & ? & ? & _ & _ & _ & ->). discriminate E.
  - inversion Hb as [E1 E2|y u Y E1 E2|y u r' t' Y Hr' Ht E1 E2]; subst.
    + destruct X as (? & ? & ? & ? & _ & _ & _ & ->). discriminate E2.
    + exfalso. destruct X as (? & ? & ? & ? & _ & _ & _ & ->). destruct Y as (? & ? & ? & ? & _ & _ & _ & E). discriminate E.
    + destruct (D _ _ _ _ _ _ Y X E2) as [-> E]. injection E as ->. rewrite (IH r' Ht). reflexivity.
Qed.
Print Assumptions C25_hex_injective.

Example C25_hex_case :
  exists o, oid_from [1; 2; 2 ^ 63] = inl o /\ oid_arcs o = None /\ bytes_ok (oid_asn1 o)
    /\ firstn 8 (to_id_string o) = [50; 97; 32; 56; 49; 32; 56; 48].
Proof. eexists. split; [reflexivity|]. split; [vm_compute; reflexivity|]. split; [repeat constructor|vm_compute; reflexivity]. Qed.

(** An arc of 64 bits is written as hexadecimal octets in the default build, and that text is not read;
    nor is the text of a relative OID. *)
Theorem C25_text_refuted :
  (exists o, oid_from [1; 2; 2 ^ 63] = inl o /\ oid_from_str (to_id_string o) = inr OidParseIntError)
  /\ (exists o, oid_from_relative [840] = inl o /\ oid_from_str (to_id_string o) = inr OidTooShort
                /\ oid_from_str (oid_display o) = inr OidParseIntError).
Proof. split; eexists; repeat split; vm_compute; reflexivity. Qed.
Print Assumptions C25_text_refuted.

(** "1.2.840" *)
Example C25_case :
  exists o, oid_from [1; 2; 840] = inl o /\ to_id_string o = [49; 46; 50; 46; 56; 52; 48]
            /\ oid_from_str [49; 46; 50; 46; 56; 52; 48] = inl o.
Proof. eexists. repeat split; vm_compute; reflexivity. Qed.

(** ** C46: the announced number of arcs *)

Lemma filter_ends_high ds : Forall (fun x => x < 128) ds -> count_ends (map (fun x => 128 + x) ds) = 0%nat.
Proof.
  unfold count_ends. induction 1 as [|x ds Hx _ IH]; [reflexivity|]. cbn [map filter]. rewrite shiftr7.
  destruct (N.ltb_spec (128 + x) 128); [lia|]. exact IH.
Qed.
Lemma count_ends_app a b : count_ends (a ++ b) = (count_ends a + count_ends b)%nat.
Proof. unfold count_ends. rewrite filter_app, app_length. reflexivity. Qed.
Lemma count_ends_subid n b : subid n b -> count_ends b = 1%nat.
Proof.
  intros (ds & d & -> & F & Hd & _). rewrite count_ends_app, filter_ends_high by exact F.
  unfold count_ends. cbn [filter]. rewrite shiftr7. destruct (N.ltb_spec d 128); [reflexivity|lia].
Qed.
Lemma count_ends_encode ns : count_ends (encode_relative ns) = length ns.
Proof.
  induction ns as [|n ns IH]; [reflexivity|]. cbn [encode_relative flat_map length]. rewrite count_ends_app.
  rewrite (count_ends_subid n) by apply encode_arc_shortest. unfold encode_relative in IH. rewrite IH. reflexivity.
Qed.

Lemma encode_arc_first n : exists x y, encode_arc n = x :: y /\ (x < 128 <-> n < 128).
Proof.
  destruct (encode_arc_shortest n) as [(ds & d & E & F & Hd & V) H]. rewrite E in *. destruct ds as [|x ds].
  - exists d, []. split; [reflexivity|]. cbn in V. lia.
  - exists (128 + x), (map (fun x => 128 + x) ds ++ [d]). split; [reflexivity|]. cbn in H. inversion F; subst.
    change ((x :: ds) ++ [d]) with (x :: (ds ++ [d])). rewrite value_be_cons. 
    assert (128 <= 128 ^ N.of_nat (length (ds ++ [d]))).
    { rewrite app_length. cbn [length]. replace (N.of_nat (length ds + 1)) with (N.succ (N.of_nat (length ds))) by lia.
      rewrite N.pow_succ_r'. assert (128 ^ N.of_nat (length ds) <> 0) by (apply N.pow_nonzero; lia). lia. }
    split; [lia|]. intros. nia.
Qed.

(** The length is right for relative OIDs, for two arcs, and when the third arc takes several octets;
    it is one too small when the third arc takes one octet. *)
Theorem C46_len_partial (s : list N) (o : oid) :
  (oid_from_relative s = inl o -> sub_len (sub_new o) = length s)
  /\ (s = [0] \/ s = [0; 0] -> oid_from s = inl o -> sub_len (sub_new o) = 1%nat)
  /\ (oid_from s = inl o -> (2 <= length s)%nat -> s <> [0; 0] -> 40 * nth 0 s 0 + nth 1 s 0 < 256 ->
      sub_len (sub_new o) = if (2 <? length s)%nat && (nth 2 s 0 <? 128) then (length s - 1)%nat else length s).
Proof.
  split.
  - destruct s as [|x s]; [discriminate|]. cbn [oid_from_relative]. intros E. injection E as <-.
    unfold sub_len, sub_new. cbn [sub_oid oid_relative oid_asn1]. apply (count_ends_encode (x :: s)).
  - split; [intros [->| ->] E; injection E as <-; reflexivity|].
    destruct s as [|a [|b rest]]; [discriminate|cbn; intros; lia|]. cbn [oid_from nth].
    destruct (N.leb_spec 7 a), (N.leb_spec 40 b); cbn [orb]; try discriminate. intros E _ Hn Hc. injection E as <-.
    rewrite (N.mul_comm a 40), N.mod_small by exact Hc. unfold sub_len, sub_new. cbn [sub_oid oid_relative oid_asn1].
    destruct rest as [|n rest].
    + cbn [encode_relative flat_map length Nat.ltb Nat.leb andb]. destruct (N.eqb_spec (40 * a + b) 0); [|reflexivity].
      assert (a = 0 /\ b = 0) as [-> ->] by lia. congruence.
    + pose proof (count_ends_encode (n :: rest)) as C. cbn [length nth] in *.
      replace (2 <? S (S (S (length rest))))%nat with true by (symmetry; apply Nat.ltb_lt; lia). cbn [andb].
      cbn [encode_relative flat_map] in *. destruct (encode_arc_first n) as (x & y & Ex & Hx). rewrite Ex in *. cbn [app] in *.
      unfold count_ends in *. cbn [filter] in C. rewrite shiftr7 in C.
      destruct (N.ltb_spec n 128), (N.ltb_spec x 128); cbn [length] in C; lia.
Qed.
Print Assumptions C46_len_partial.

(** Counts that are right, and one that is not. *)
Example C46_case :
  exists o r, oid_from [1; 2; 840; 113549] = inl o /\ sub_len (sub_new o) = 4%nat /\ oid_from_relative [8571; 3; 2] = inl r /\ sub_len (sub_new r) = 3%nat
    /\ exists p, oid_from [1; 2; 3] = inl p /\ sub_len (sub_new p) = 2%nat.
Proof. eexists _, _. split; [vm_compute; reflexivity|]. split; [vm_compute; reflexivity|]. split; [vm_compute; reflexivity|]. split; [vm_compute; reflexivity|]. eexists. split; vm_compute; reflexivity. Qed.

(** 1.2.3 announces two arcs; and the number does not go down while iterating. *)
Theorem C46_len_refuted :
  (exists o, oid_from [1; 2; 3] = inl o /\ oid_arcs o = Some [1; 2; 3] /\ sub_len (sub_new o) = 2%nat)
  /\ (exists o, oid_from [1; 2; 840] = inl o /\ sub_len (sub_new o) = 3%nat
        /\ sub_len (snd (sub_next shl7_u64 (sub_new o))) = 3%nat).
Proof. split; eexists; repeat split; vm_compute; reflexivity. Qed.
Print Assumptions C46_len_refuted.

(** ** C47: the [oid!] macro *)

Lemma flat_map_base128 ns : flat_map encode_base128 ns = encode_relative ns.
Proof. induction ns as [|n ns IH]; [reflexivity|]. cbn. rewrite encode_base128_ok, IH. reflexivity. Qed.

Theorem C47_macro_agrees (s : list N) (o : oid) :
  (oid_macro false s = Some o <-> oid_from s = inl o /\ (2 <= blen s -> nth 0 s 0 <= 2))
  /\ (s <> [] -> (oid_macro true s = Some o <-> oid_from_relative s = inl o)).
Proof.
  split.
  - unfold oid_macro, encode_oid_macro. destruct s as [|a [|b rest]]; cbn [oid_from nth].
    + split; [discriminate|intros [E _]; discriminate].
    + destruct (a =? 0); split; try discriminate; try (intros [E _]; discriminate).
      * intros E. injection E as <-. split; [reflexivity|]. unfold blen. cbn. lia.
      * intros [E _]. injection E as <-. reflexivity.
    + rewrite flat_map_base128. rewrite !blen_cons.
      destruct (N.ltb_spec 2 a), (N.ltb_spec 39 b), (N.leb_spec 7 a), (N.leb_spec 40 b); cbn [orb]; try lia;
        split; try discriminate; try (intros [E L]; try discriminate; lia).
      * intros E. injection E as <-. split; [reflexivity|lia].
      * intros [E _]. injection E as <-. reflexivity.
  - intros Hs. unfold oid_macro, encode_oid_macro. rewrite flat_map_base128. destruct s as [|x s]; [congruence|].
    cbn [oid_from_relative]. split; intros E; injection E as <-; reflexivity.
Qed.
Print Assumptions C47_macro_agrees.

Example C47_case : oid_macro false [1; 2; 840; 113549] = Some (mk_oid [42; 134; 72; 134; 247; 13] false)
  /\ oid_from [1; 2; 840; 113549] = inl (mk_oid [42; 134; 72; 134; 247; 13] false).
Proof. split; vm_compute; reflexivity. Qed.

(** ** C48: BER and DER *)

Lemma oid_content_ok h d r v : oid_ber_content h d = Ok (r, v) <->
  h_constructed h = false /\ d <> [] /\ r = [] /\ v = mk_oid d false.
Proof.
  unfold oid_ber_content, assert_primitive. destruct (h_constructed h); cbn [bind].
  - split; [discriminate|intros [E _]; discriminate].
  - destruct d; split; try discriminate; try tauto.
    + intros E. injection E as <- <-. repeat split. discriminate.
    + intros (_ & _ & -> & ->). reflexivity.
Qed.

Definition oid_input (i rem content : bytes) : Prop :=
  content <> [] /\ exists c tag, (tag = 6 \/ tag = 13) /\ starts_with_object c false tag content i rem.

(** The parsers take any primitive, non-empty object with tag number 6 or 13, whatever its contents. *)
Theorem C48_oid_accept (i rem : bytes) (o : oid) :
  bytes_ok i ->
  (parse_ber oid_codec i = Ok (rem, o) <-> oid_relative o = false /\ oid_input i rem (oid_asn1 o))
  /\ (from_ber oid_codec i = Ok (rem, o) <-> oid_relative o = false /\ oid_input i rem (oid_asn1 o))
  /\ (parse_der oid_codec i = Ok (rem, o) <-> oid_relative o = false /\ oid_input i rem (oid_asn1 o))
  /\ (from_der oid_codec i = Ok (rem, o) <-> oid_relative o = false /\ oid_input i rem (oid_asn1 o)).
Proof.
  intros Hi. rewrite from_ber_parse_ber by (try exact Hi; intros a; reflexivity).
  assert (AT : forall t, oid_accept t = true <-> t = 6 \/ t = 13).
  { intros t. unfold oid_accept. rewrite orb_true_iff, !N.eqb_eq. reflexivity. }
  assert (B : parse_ber oid_codec i = Ok (rem, o) <-> oid_relative o = false /\ oid_input i rem (oid_asn1 o)).
  { rewrite parse_ber_prim; [|intros h d r v E; apply oid_content_ok in E; tauto|exact Hi]. cbn [accept_tag ber_content oid_codec]. split.
    - intros (c & t & idb & lenb & bs & r & HR & -> & A & E). apply AT in A. apply oid_content_ok in E as (_ & Hn & _ & ->).
      cbn. split; [reflexivity|]. split; [exact Hn|]. exists c, (t mod 2 ^ 32). split; [exact A|]. exists t, idb, lenb. auto.
    - intros (Hr & Hn & c & tag & A & (t & idb & lenb & HR & <- & ->)). exists c, t, idb, lenb, (oid_asn1 o), [].
      rewrite AT. split; [exact HR|]. split; [reflexivity|]. split; [exact A|]. apply oid_content_ok. destruct o; cbn in *. subst. auto. }
  split; [exact B|]. split; [exact B|]. split.
  - rewrite parse_der_iff by exact Hi. cbn [accept_tag der_content oid_codec]. unfold oid_der_content. split.
    + intros (c & k & t & idb & lenb & bs & r & HR & -> & A & E). apply AT in A. apply oid_content_ok in E as (K & Hn & _ & ->).
      cbn in K. subst k. cbn. split; [reflexivity|]. split; [exact Hn|]. exists c, (t mod 2 ^ 32). split; [exact A|]. exists t, idb, lenb. auto.
    + intros (Hr & Hn & c & tag & A & (t & idb & lenb & HR & <- & ->)). exists c, false, t, idb, lenb, (oid_asn1 o), [].
      rewrite AT. split; [exact HR|]. split; [reflexivity|]. split; [exact A|]. apply oid_content_ok. destruct o; cbn in *. subst. auto.
  - rewrite from_der_iff by exact Hi. cbn [try_from_any check_constraints oid_codec]. split.
    + intros (c & k & t & idb & lenb & bs & HR & -> & C & E). apply default_try_from_ok in E as [A [r E]]. apply AT in A.
      apply oid_content_ok in E as (K & Hn & _ & ->).
      cbn in K. subst k. cbn. split; [reflexivity|]. split; [exact Hn|]. exists c, (t mod 2 ^ 32). split; [exact A|]. exists t, idb, lenb. auto.
    + intros (Hr & Hn & c & tag & A & (t & idb & lenb & HR & <- & ->)). exists c, false, t, idb, lenb, (oid_asn1 o).
      split; [exact HR|]. split; [reflexivity|]. split; [reflexivity|]. apply default_try_from_ok.
      split; [apply AT; exact A|]. exists []. apply oid_content_ok. destruct o; cbn in *. subst. auto.
Qed.
Print Assumptions C48_oid_accept.

Lemma writes_oid o : writes (tober_oid o) Universal false (oid_tag o) (oid_asn1 o).
Proof. repeat split. Qed.

(** Absolute OIDs come back by the ordinary parsers, relative ones by the dedicated parsers. *)
Theorem C48_oid_roundtrip_partial (o : oid) :
  oid_asn1 o <> [] -> bytes_ok (oid_asn1 o) -> blen (oid_asn1 o) < 2 ^ 64 ->
  exists enc, to_vec (tober_oid o) = Ok enc
    /\ reads_ber oid_codec enc (mk_oid (oid_asn1 o) false) /\ reads_der oid_codec enc (mk_oid (oid_asn1 o) false)
    /\ (oid_relative o = true -> forall x, bytes_ok x ->
          oid_from_ber_relative (enc ++ x) = Ok (x, o) /\ oid_from_der_relative (enc ++ x) = Ok (x, o)).
Proof.
  intros Hne Hok Hlen.
  assert (T : oid_tag o < 2 ^ 32) by (unfold oid_tag; destruct (oid_relative o); reflexivity).
  assert (A : oid_accept (oid_tag o) = true) by (unfold oid_tag; destruct (oid_relative o); reflexivity).
  assert (C : forall h, h_constructed h = false -> oid_ber_content h (oid_asn1 o) = Ok ([], mk_oid (oid_asn1 o) false)).
  { intros h K. apply oid_content_ok. auto. }
  assert (D : forall h, h_constructed h = false -> h_tag h = oid_tag o ->
     default_try_from oid_accept oid_ber_content (mk_any h (oid_asn1 o)) = Ok (mk_oid (oid_asn1 o) false)).
  { intros h K Ht. unfold default_try_from. cbn [any_header any_data]. rewrite Ht, A. unfold oid_codec, ber_content. rewrite C by exact K. reflexivity. }
  assert (RB : ber_reads oid_codec Universal false (oid_tag o) (oid_asn1 o) (mk_oid (oid_asn1 o) false)).
  { split; [exact A|]. intros rt rh h. split; [exists []; apply C; reflexivity|]. apply D; reflexivity. }
  assert (RD : der_reads oid_codec Universal false (oid_tag o) (oid_asn1 o) (mk_oid (oid_asn1 o) false)).
  { split; [exact A|]. intros rt rh h. split; [exists []; apply C; reflexivity|]. split; [apply D; reflexivity|reflexivity]. }
  destruct (roundtrip_ber _ _ _ _ _ _ _ (writes_oid o) RB T Hlen Hok) as (enc & E & Henc & R1).
  destruct (roundtrip_der _ _ _ _ _ _ _ (writes_oid o) RD T Hlen Hok) as (enc2 & E2 & _ & R2).
  rewrite E in E2. injection E2 as <-. exists enc. split; [exact E|]. split; [exact R1|]. split; [exact R2|].
  intros Hr x Hx. destruct (encode_writes _ _ _ _ _ (writes_oid o) T Hlen) as (idb & lenb & E3 & _ & _ & _ & HR).
  unfold to_vec in E. rewrite E3 in E. cbn [bind] in E. injection E as <-.
  assert (Ht : oid_tag o = 13) by (unfold oid_tag; rewrite Hr; reflexivity). rewrite Ht in *.
  assert (Hi : bytes_ok ((idb ++ lenb ++ oid_asn1 o) ++ x)) by (apply bytes_ok_app; split; assumption).
  assert (Ho : mk_oid (oid_asn1 o) true = o) by (destruct o; cbn in *; subst; reflexivity).
  rewrite <- !app_assoc in *. split.
  - unfold oid_from_ber_relative.
    assert (P : parse_ber_any (idb ++ lenb ++ oid_asn1 o ++ x)
       = Ok (x, mk_any (hdr Universal false 13 (Definite (blen (oid_asn1 o))) idb lenb) (oid_asn1 o))).
    { apply parse_ber_any_ok; [exact Hi|]. exists Universal, false, 13, (Definite (blen (oid_asn1 o))), idb, lenb, (oid_asn1 o).
      split; [exact HR|]. split; [reflexivity|]. split; [constructor; reflexivity|reflexivity]. }
    rewrite P. cbn. rewrite Ho. reflexivity.
  - unfold oid_from_der_relative.
    assert (P : from_der any_codec (idb ++ lenb ++ oid_asn1 o ++ x)
       = Ok (x, mk_any (hdr Universal false 13 (Definite (blen (oid_asn1 o))) idb lenb) (oid_asn1 o))).
    { apply from_der_iff; [exact Hi|]. exists Universal, false, 13, idb, lenb, (oid_asn1 o).
      split; [exact HR|]. split; [reflexivity|]. split; reflexivity. }
    rewrite P. cbn. rewrite Ho. reflexivity.
Qed.
Print Assumptions C48_oid_roundtrip_partial.

(** [from_ber_relative] and [from_der_relative] accept exactly the primitive objects with tag number 13;
    the content may be empty. *)
Theorem C48_relative_accept (i rem : bytes) (o : oid) :
  bytes_ok i ->
  let accepted := oid_relative o = true /\ exists c, starts_with_object c false 13 (oid_asn1 o) i rem in
  (oid_from_ber_relative i = Ok (rem, o) <-> accepted) /\ (oid_from_der_relative i = Ok (rem, o) <-> accepted).
Proof.
  intros Hi. cbv zeta.
  assert (AT : forall c k t l idb lenb, assert_tag (hdr c k t l idb lenb) TagRelativeOid = Ok tt <-> t mod 2 ^ 32 = 13).
  { intros. unfold assert_tag. cbn [h_tag hdr]. change TagRelativeOid with 13. destruct (N.eqb_spec (t mod 2 ^ 32) 13); split; try discriminate; auto; congruence. }
  split.
  - unfold oid_from_ber_relative. rewrite bind_ok. split.
    + intros ([r a] & P & E). apply parse_ber_any_ok in P as (c & k & t & l & idb & lenb & bs & HR & -> & HC & ->); [|exact Hi].
      cbn [any_header any_data] in E. apply bind_ok in E as ([] & E1 & E). apply bind_ok in E as ([] & E2 & E). injection E as -> <-.
      unfold assert_primitive in E1. cbn [h_constructed hdr] in E1. destruct k; [discriminate|].
      apply AT in E2. destruct l as [n|]; [|destruct HR as [(_ & _ & X) _]; discriminate (X eq_refl)].
      apply contents_definite_len in HC. subst n. cbn. split; [reflexivity|]. exists c, t, idb, lenb. auto.
    + intros (Hr & c & t & idb & lenb & HR & Ht & ->).
      exists (rem, mk_any (hdr c false t (Definite (blen (oid_asn1 o))) idb lenb) (oid_asn1 o)). split.
      * apply parse_ber_any_ok; [exact Hi|]. exists c, false, t, (Definite (blen (oid_asn1 o))), idb, lenb, (oid_asn1 o).
        split; [exact HR|]. split; [reflexivity|]. split; [constructor; reflexivity|reflexivity].
      * cbn [any_header any_data]. change (assert_primitive (hdr c false t (Definite (blen (oid_asn1 o))) idb lenb)) with (Ok tt : res unit).
        cbn [bind]. rewrite (proj2 (AT _ _ _ _ _ _) Ht). cbn [bind]. destruct o; cbn in *. subst. reflexivity.
  - unfold oid_from_der_relative. rewrite bind_ok. split.
    + intros ([r a] & P & E). apply from_der_iff in P as (c & k & t & idb & lenb & bs & HR & -> & _ & P); [|exact Hi].
      cbn [try_from_any any_codec] in P. injection P as <-.
      cbn [any_header any_data] in E. apply bind_ok in E as ([] & E1 & E). apply bind_ok in E as ([] & E2 & E). injection E as -> <-.
      unfold oid_check in E2. apply bind_ok in E2 as ([] & E2 & _). cbn [any_header] in E2.
      unfold assert_primitive in E2. cbn [h_constructed hdr] in E2. destruct k; [discriminate|].
      apply AT in E1. cbn. split; [reflexivity|]. exists c, t, idb, lenb. auto.
    + intros (Hr & c & t & idb & lenb & HR & Ht & ->).
      exists (rem, mk_any (hdr c false t (Definite (blen (oid_asn1 o))) idb lenb) (oid_asn1 o)). split.
      * apply from_der_iff; [exact Hi|]. exists c, false, t, idb, lenb, (oid_asn1 o).
        split; [exact HR|]. split; [reflexivity|]. split; reflexivity.
      * cbn [any_header any_data]. rewrite (proj2 (AT _ _ _ _ _ _) Ht). cbn [bind]. destruct o; cbn in *. subst. reflexivity.
Qed.
Print Assumptions C48_relative_accept.

(** A relative OID parsed by the ordinary parsers becomes absolute. *)
Theorem C48_relative_refuted :
  exists o enc, oid_from_relative [840; 1] = inl o /\ to_vec (tober_oid o) = Ok enc
    /\ parse_ber oid_codec enc = Ok ([], mk_oid (oid_asn1 o) false) /\ from_der oid_codec enc = Ok ([], mk_oid (oid_asn1 o) false)
    /\ oid_relative o = true.
Proof. eexists; eexists; repeat split; vm_compute; reflexivity. Qed.
Print Assumptions C48_relative_refuted.

Example C48_case : to_vec (tober_oid (mk_oid [42; 134; 72] false)) = Ok [6; 3; 42; 134; 72]
  /\ from_der oid_codec [6; 3; 42; 134; 72] = Ok ([], mk_oid [42; 134; 72] false).
Proof. split; vm_compute; reflexivity. Qed.

(** ** C49: arcs of an OID read from bytes *)

(** Contents are the arcs per X.690, shortest sub-identifiers, first sub-identifier below 80 or
    second arc below 40, later arcs below 2^63: the iterator returns the arcs. *)
Theorem C49_iter_x690_partial (arcs : list N) (bs : bytes) :
  oid_contents arcs bs -> nth 1 arcs 0 < 40 -> Forall (fun n => n < 2 ^ 63) (tl (tl arcs)) -> arcs <> [0; 0] ->
  oid_arcs (mk_oid bs false) = Some arcs /\ oid_arcs_bigint (mk_oid bs false) = arcs.
Proof.
  intros (a & b & rest & -> & Ha & _ & S1) Hb F Hn. cbn [nth tl] in *.
  destruct (C22_oid_arcs_partial a b rest) as (o & E & A1 & _ & A2); [lia|lia|lia|exact Hn|].
  assert (Eo : mk_oid bs false = o).
  { cbn [oid_from] in E. destruct ((7 <=? a) || (40 <=? b)); [discriminate|]. injection E as <-. f_equal.
    rewrite (N.mul_comm a), N.mod_small by lia. inversion S1 as [|n ns b0 bs0 H1 H2]; subst.
    apply shortest_arc in H1. subst b0.
    assert (E2 : bs0 = encode_relative rest).
    { clear -H2. induction H2 as [|n ns b0 bs0 H1 H2 IH]; [reflexivity|]. cbn. rewrite (shortest_arc _ _ H1), IH. reflexivity. }
    assert (E3 : encode_arc (40 * a + b) = [40 * a + b]).
    { symmetry. apply shortest_arc. apply subid_one. lia. }
    rewrite E2, E3. reflexivity. }
  rewrite Eo. auto.
Qed.
Print Assumptions C49_iter_x690_partial.

(** 2.999 (X.690 8.19.5, contents 88 37): read as 3.16.55; and it cannot be built from its arcs.
    An octet 120, the arcs 2.40, is read as 3.0. *)
Theorem C49_second_arc_refuted :
  oid_contents [2; 999; 3] [0x88; 0x37; 0x03]
  /\ from_der oid_codec [6; 3; 0x88; 0x37; 0x03] = Ok ([], mk_oid [0x88; 0x37; 0x03] false)
  /\ oid_arcs (mk_oid [0x88; 0x37; 0x03] false) = Some [3; 16; 55; 3]
  /\ oid_from [2; 999; 3] = inr OidFirstComponentsTooLarge
  /\ oid_contents [2; 40] [120] /\ oid_arcs (mk_oid [120] false) = Some [3; 0].
Proof.
  split; [|split; [vm_compute; reflexivity|split; [vm_compute; reflexivity|split; [reflexivity|split; [|vm_compute; reflexivity]]]]].
  - exists 2, 999, [3]. split; [reflexivity|]. split; [lia|]. split; [lia|].
    change [0x88; 0x37; 0x03] with ([0x88; 0x37] ++ [3] ++ []). constructor; [|constructor; [apply subid_one; lia|constructor]].
    split; [|cbn; lia]. exists [8], 0x37. split; [reflexivity|]. split; [repeat constructor|]. split; reflexivity.
  - exists 2, 40, []. split; [reflexivity|]. split; [lia|]. split; [lia|].
    change [120] with ([120] ++ []). constructor; [apply subid_one; lia|constructor].
Qed.
Print Assumptions C49_second_arc_refuted.

(** Contents that are not sub-identifiers at all are accepted: an unfinished last arc, and a leading 0x80. *)
Theorem C49_malformed_refuted :
  (from_der oid_codec [6; 2; 42; 0x86] = Ok ([], mk_oid [42; 0x86] false) /\ oid_arcs (mk_oid [42; 0x86] false) = Some [1; 2; 6])
  /\ (from_der oid_codec [6; 3; 42; 0x80; 1] = Ok ([], mk_oid [42; 0x80; 1] false) /\ oid_arcs (mk_oid [42; 0x80; 1] false) = Some [1; 2; 1]).
Proof. repeat split; vm_compute; reflexivity. Qed.
Print Assumptions C49_malformed_refuted.

Example C49_case : oid_contents [2; 39; 5] [119; 5].
Proof.
  exists 2, 39, [5]. split; [reflexivity|]. split; [lia|]. split; [lia|]. change [119; 5] with ([119] ++ [5] ++ []).
  constructor; [|constructor; [|constructor]]; apply subid_one; lia.
Qed.
