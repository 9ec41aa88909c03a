(** Proofs about object identifiers. *)
From Verif Require Import Base MHeader MEncode SHeader PArith PHeader PEncode MBer SBer PBer PIter
  MInt PCodec PInt MOid SOid.

Lemma shiftr7 c : (N.shiftr c 7 =? 0) = (c <? 128).
Proof. rewrite N.shiftr_div_pow2. change (2 ^ 7) with 128. destruct (N.ltb_spec c 128); lia. Qed.

(** Digits of [n] in base 128, in [k] positions. *)
Fixpoint dig (k : nat) (n : N) : list N :=
  match k with O => [] | S k => dig k (n / 128) ++ [n mod 128] end.

Lemma dig_length k n : length (dig k n) = k.
Proof. revert n. induction k as [|k IH]; intros n; [reflexivity|]. cbn [dig]. rewrite app_length, IH. cbn. lia. Qed.

Lemma dig_bound k n : Forall (fun x => x < 128) (dig k n).
Proof.
  revert n. induction k as [|k IH]; intros n; [constructor|]. cbn [dig]. apply Forall_app. split; [apply IH|].
  constructor; [lia|constructor].
Qed.

Lemma dig_value k n : n < 128 ^ N.of_nat k -> value_be 128 (dig k n) = n.
Proof.
  revert n. induction k as [|k IH]; intros n H; [change (128 ^ N.of_nat 0) with 1 in H; cbn; lia|].
  cbn [dig]. rewrite value_be_snoc, IH; [lia|].
  replace (N.of_nat (S k)) with (N.succ (N.of_nat k)) in H by lia. rewrite N.pow_succ_r' in H. lia.
Qed.

Lemma dig_head k n : 128 ^ N.of_nat k <= n -> n < 128 ^ N.of_nat (S k) -> hd 0 (dig (S k) n) <> 0.
Proof.
  revert n. induction k as [|k IH]; intros n H1 H2.
  - cbn. change (128 ^ N.of_nat 0) with 1 in H1. change (128 ^ N.of_nat 1) with 128 in H2. lia.
  - replace (N.of_nat (S (S k))) with (N.succ (N.of_nat (S k))) in H2 by lia.
    rewrite N.pow_succ_r' in H2.
    replace (N.of_nat (S k)) with (N.succ (N.of_nat k)) in H1 by lia. rewrite N.pow_succ_r' in H1.
    change (dig (S (S k)) n) with (dig (S k) (n / 128) ++ [n mod 128]).
    assert (G : hd 0 (dig (S k) (n / 128)) <> 0) by (apply IH; lia).
    destruct (dig (S k) (n / 128)) eqn:E; [cbn in G; congruence|exact G].
Qed.

Lemma map_digits k n :
  map (fun i => (n / 128 ^ (N.of_nat k - 1 - i)) mod 128) (map N.of_nat (seq 0 k)) = dig k n.
Proof.
  revert n. induction k as [|k IH]; intros n; [reflexivity|].
  rewrite seq_S, !map_app. cbn [map dig Nat.add]. f_equal.
  - rewrite <- IH. apply map_ext_in. intros i Hi. apply in_map_iff in Hi as (j & <- & Hj). apply in_seq in Hj.
    replace (N.of_nat (S k) - 1 - N.of_nat j) with (N.succ (N.of_nat k - 1 - N.of_nat j)) by lia.
    rewrite N.pow_succ_r', N.div_div by (try lia; apply N.pow_nonzero; lia). reflexivity.
  - f_equal. replace (N.of_nat (S k) - 1 - N.of_nat k) with 0 by lia. rewrite N.pow_0_r, N.div_1_r. reflexivity.
Qed.

Definition arc_octets (n : N) : nat := N.to_nat (N.max ((N.size n + 6) / 7) 1).

Lemma arc_octets_bound n :
  n < 128 ^ N.of_nat (arc_octets n) /\ (arc_octets n = 1%nat \/ 128 ^ (N.of_nat (arc_octets n) - 1) <= n).
Proof.
  unfold arc_octets. rewrite N2Nat.id. change 128 with (2 ^ 7). rewrite <- !N.pow_mul_r.
  pose proof (N.size_gt n) as G. pose proof (N.size_le n) as L. split.
  - eapply N.lt_le_trans; [exact G|]. apply N.pow_le_mono_r; lia.
  - destruct (N.le_gt_cases ((N.size n + 6) / 7) 1) as [E|E]; [left; lia|right].
    assert (E2 : 2 ^ N.size n <= 2 * n \/ n = 0).
    { destruct n as [|p]; [right; reflexivity|left]. cbn [N.size N.succ_double] in *.
      assert (H : 2 * 2 ^ (N.size (N.pos p) - 1) <= 2 * N.pos p).
      { destruct (N.size (N.pos p)) eqn:Es; [discriminate|]. 
        rewrite <- N.log2_up_succ_or in * || idtac.
        assert (N.size (N.pos p) = N.succ (N.log2 (N.pos p))) by (apply N.size_log2; discriminate).
        rewrite <- Es, H. replace (N.succ (N.log2 (N.pos p)) - 1) with (N.log2 (N.pos p)) by lia.
        pose proof (N.log2_spec (N.pos p)). lia. }
      assert (Hs : N.size (N.pos p) = N.succ (N.log2 (N.pos p))) by (apply N.size_log2; discriminate).
      change (Npos (Pos.size p)) with (N.size (N.pos p)). rewrite Hs in *. rewrite N.pow_succ_r'.
      replace (N.succ (N.log2 (N.pos p)) - 1) with (N.log2 (N.pos p)) in H by lia. exact H. }
    destruct E2 as [E2| ->]; [|cbn in E; lia].
    assert (H : 2 ^ (7 * (N.max ((N.size n + 6) / 7) 1 - 1)) <= 2 ^ (N.size n - 1)) by (apply N.pow_le_mono_r; lia).
    replace (N.size n) with (N.succ (N.size n - 1)) in E2 by lia. rewrite N.pow_succ_r' in E2. lia.
Qed.

Lemma encode_arc_eq n :
  encode_arc n = map (fun x => 128 + x) (dig (arc_octets n - 1) (n / 128)) ++ [n mod 128].
Proof.
  unfold encode_arc. fold (arc_octets n). set (k := arc_octets n).
  assert (Hk : N.max ((N.size n + 6) / 7) 1 = N.of_nat k) by (unfold k, arc_octets; lia). rewrite Hk.
  assert (K : exists k', k = S k') by (unfold k, arc_octets; exists (N.to_nat (N.max ((N.size n + 6) / 7) 1) - 1)%nat; lia).
  destruct K as [k' ->]. replace (S k' - 1)%nat with k' by lia.
  rewrite seq_S, !map_app. cbn [map Nat.add]. f_equal.
  - rewrite <- map_digits. rewrite (map_map (fun i => (n / 128 / 128 ^ (N.of_nat k' - 1 - i)) mod 128)). apply map_ext_in. intros i Hi. apply in_map_iff in Hi as (j & <- & Hj). apply in_seq in Hj.
    destruct (N.eqb_spec (N.of_nat j) (N.of_nat (S k') - 1)); [lia|].
    rewrite N.shiftr_div_pow2. change 127 with (N.ones 7). rewrite land_ones_mod.
    replace (7 * (N.of_nat (S k') - 1 - N.of_nat j)) with (7 * N.succ (N.of_nat k' - 1 - N.of_nat j)) by lia.
    rewrite N.pow_mul_r. change (2 ^ 7) with 128. rewrite N.pow_succ_r', N.div_div by (try lia; apply N.pow_nonzero; lia).
    set (q := n / (128 * 128 ^ (N.of_nat k' - 1 - N.of_nat j))).
    rewrite (N.mod_small (q mod 128) 256) by lia. change (N.shiftl 1 7) with (1 * 2 ^ 7).
    rewrite N.lor_comm, lor_add by (change (2 ^ 7) with 128; lia). reflexivity.
  - replace (N.of_nat (S k') - 1 - N.of_nat k') with 0 by lia. rewrite N.shiftr_0_r.
    destruct (N.eqb_spec (N.of_nat k') (N.of_nat (S k') - 1)); [|lia]. rewrite N.lor_0_r.
    change 127 with (N.ones 7). rewrite land_ones_mod. change (2 ^ 7) with 128. rewrite N.mod_small by lia. reflexivity.
Qed.

Lemma encode_arc_shortest n : subid_shortest n (encode_arc n).
Proof.
  destruct (arc_octets_bound n) as [B1 B2]. rewrite encode_arc_eq.
  destruct (arc_octets n) as [|k] eqn:Ek; [exfalso; change (128 ^ N.of_nat 0) with 1 in B1; unfold arc_octets in Ek; lia|].
  replace (S k - 1)%nat with k by lia. split.
  - exists (dig k (n / 128)), (n mod 128). split; [reflexivity|]. split; [apply dig_bound|]. split; [lia|].
    change (dig k (n / 128) ++ [n mod 128]) with (dig (S k) n). rewrite dig_value by exact B1. reflexivity.
  - destruct k as [|k]; [cbn; lia|]. destruct B2 as [B2|B2]; [discriminate|].
    replace (N.of_nat (S (S k)) - 1) with (N.of_nat (S k)) in B2 by lia.
    assert (H : hd 0 (dig (S (S k)) n) <> 0) by (apply dig_head; assumption).
    change (dig (S (S k)) n) with (dig (S k) (n / 128) ++ [n mod 128]) in H.
    destruct (dig (S k) (n / 128)) as [|x l] eqn:E; [apply (f_equal (@length N)) in E; rewrite dig_length in E; discriminate|].
    cbn in *. lia.
Qed.

Lemma encode_arc_length n : length (encode_arc n) = arc_octets n.
Proof.
  rewrite encode_arc_eq, app_length, map_length, dig_length. cbn. unfold arc_octets. lia.
Qed.

Lemma encode_relative_subids ns : subids subid_shortest ns (encode_relative ns).
Proof.
  induction ns as [|n ns IH]; [constructor|]. cbn [encode_relative flat_map]. constructor; [apply encode_arc_shortest|exact IH].
Qed.

Lemma subid_det n b n' b' x x' : subid n b -> subid n' b' -> b ++ x = b' ++ x' -> b = b' /\ n = n' /\ x = x'.
Proof.
  intros (ds & d & -> & F & Hd & ->) (ds' & d' & -> & F' & Hd' & ->) E.
  assert (G : ds = ds' /\ d = d' /\ x = x').
  { revert ds' F' E. induction ds as [|y ds IH]; intros [|y' ds'] F' E; cbn in E.
    - injection E as -> ->. auto.
    - injection E as E _. lia.
    - injection E as E _. lia.
    - injection E as E1 E2. inversion F; inversion F'; subst.
      destruct (IH H2 ds' H6 E2) as (-> & -> & ->). split; [f_equal; lia|auto]. }
  destruct G as (-> & -> & ->). auto.
Qed.

Lemma subid_nonempty n b : subid n b -> (1 <= length b)%nat.
Proof. intros (ds & d & -> & _). rewrite app_length. cbn. lia. Qed.

Lemma subids_prefix ns b ms c x :
  subids subid_shortest ns b -> subids subid_shortest ms c -> c = b ++ x ->
  exists ks, ms = ns ++ ks /\ subids subid_shortest ks x.
Proof.
  intros H. revert ms c x. induction H as [|n ns b bs Hn _ IH]; intros ms c x Hm E.
  - cbn in E. subst c. exists ms. auto.
  - rewrite <- app_assoc in E. destruct Hm as [|m ms b' bs' Hm Hms].
    + destruct Hn as [Hn _]. apply subid_nonempty in Hn. destruct b; [cbn in Hn; lia|discriminate].
    + destruct (subid_det m b' n b bs' (bs ++ x) (proj1 Hm) (proj1 Hn) E) as (_ & -> & E2).
      destruct (IH ms bs' x Hms E2) as (ks & -> & K). exists ks. auto.
Qed.

Lemma subids_app P ns b ms c : subids P ns b -> subids P ms c -> subids P (ns ++ ms) (b ++ c).
Proof. induction 1 as [|n ns b bs Hn _ IH]; intros H; [exact H|]. cbn. rewrite <- app_assoc. constructor; auto. Qed.

Lemma subids_length (P : N -> bytes -> Prop) ns b : (forall n b, P n b -> (1 <= length b)%nat) -> subids P ns b -> (length ns <= length b)%nat.
Proof.
  intros HP. induction 1 as [|n ns b bs Hn _ IH]; [lia|]. apply HP in Hn. rewrite app_length. cbn. lia.
Qed.

(** Decoding. *)
Definition shl7_good (shl7 : N -> N) (limit : option N) : Prop :=
  forall n, match limit with Some l => 128 * n < l | None => True end -> shl7 n = n * 128.

Lemma shl7_u64_good : shl7_good shl7_u64 (Some (2 ^ 64)).
Proof.
  intros n H. unfold shl7_u64. rewrite N.shiftl_mul_pow2. change (2 ^ 7) with 128. apply N.mod_small. lia.
Qed.
Lemma shl7_big_good : shl7_good shl7_big None.
Proof. intros n _. unfold shl7_big. rewrite N.shiftl_mul_pow2. reflexivity. Qed.

Definition below (limit : option N) (n : N) : Prop := match limit with Some l => n < l | None => True end.

Lemma fold_ge ds acc : acc <= fold_left (fun acc d => acc * 128 + d) ds acc.
Proof.
  revert acc. induction ds as [|d ds IH]; intros acc; cbn; [lia|]. specialize (IH (acc * 128 + d)). lia.
Qed.

Lemma sub_decode_ok shl7 limit ds d rest acc :
  shl7_good shl7 limit -> Forall (fun x => x < 128) ds -> d < 128 ->
  below limit (fold_left (fun acc d => acc * 128 + d) (ds ++ [d]) acc) ->
  sub_decode shl7 acc ((map (fun x => 128 + x) ds ++ [d]) ++ rest)
  = (fold_left (fun acc d => acc * 128 + d) (ds ++ [d]) acc, S (length ds)).
Proof.
  intros Hg F. revert acc. induction F as [|x ds Hx F IH]; intros acc Hd Hb.
  - cbn [map app sub_decode fold_left length]. change 127 with (N.ones 7). rewrite land_ones_mod. change (2 ^ 7) with 128.
    rewrite shiftr7. destruct (N.ltb_spec d 128); [|lia]. rewrite N.mod_small by lia. rewrite Hg; [reflexivity|].
    unfold below in Hb. destruct limit; [|exact I]. cbn in Hb. lia.
  - cbn [map app sub_decode fold_left length]. change 127 with (N.ones 7). rewrite land_ones_mod. change (2 ^ 7) with 128.
    rewrite shiftr7. destruct (N.ltb_spec (128 + x) 128); [lia|].
    replace ((128 + x) mod 128) with x by lia. cbn [app fold_left] in Hb.
    rewrite Hg.
    + rewrite IH by assumption. reflexivity.
    + unfold below in Hb. destruct limit; [|exact I]. pose proof (fold_ge (ds ++ [d]) (acc * 128 + x)). lia.
Qed.

Lemma sub_decode_subid shl7 limit n b rest :
  shl7_good shl7 limit -> subid n b -> below limit n -> sub_decode shl7 0 (b ++ rest) = (n, length b).
Proof.
  intros Hg (ds & d & -> & F & Hd & ->) Hb. unfold value_be in *. rewrite (sub_decode_ok shl7 limit) by assumption.
  f_equal. rewrite app_length, map_length. cbn. lia.
Qed.

(** The iterator past the first two arcs. *)
Lemma sub_collect_tail shl7 limit o pos first pre ns bs :
  shl7_good shl7 limit -> oid_asn1 o = pre ++ bs -> length pre = pos ->
  (oid_relative o = true \/ (first = true /\ (1 <= pos)%nat)) ->
  subids subid ns bs -> Forall (below limit) ns ->
  forall fuel, (length ns < fuel)%nat -> sub_collect shl7 fuel (mk_sub o pos first) = ns.
Proof.
  intros Hg Eo Hp Hr Hs. revert pre pos Eo Hp Hr. induction Hs as [|n ns b bs Hn Hs IH]; intros pre pos Eo Hp Hr Hb fuel Hf;
    destruct fuel as [|fuel]; try (cbn in Hf; lia); cbn [sub_collect]; unfold sub_next; cbn [sub_oid sub_pos sub_first].
  - rewrite app_nil_r in Eo. rewrite Eo, Hp, Nat.eqb_refl. reflexivity.
  - inversion Hb as [|n' ns' Hb1 Hb2]; subst n' ns'. pose proof (subid_nonempty _ _ Hn) as Hne.
    destruct (Nat.eqb_spec pos (length (oid_asn1 o))) as [E|_].
    { rewrite Eo, !app_length in E. lia. }
    assert (Esk : skipn pos (oid_asn1 o) = b ++ bs).
    { rewrite Eo, <- Hp. rewrite skipn_app, skipn_all, Nat.sub_diag. reflexivity. }
    rewrite Esk, (sub_decode_subid shl7 limit n b bs Hg Hn Hb1).
    assert (E : forall f, sub_collect shl7 fuel (mk_sub o (pos + length b) f) = ns <-> sub_collect shl7 fuel (mk_sub o (pos + length b) f) = ns) by tauto.
    assert (IH' : oid_relative o = true \/ (first = true /\ (1 <= pos + length b)%nat) ->
       sub_collect shl7 fuel (mk_sub o (pos + length b) first) = ns).
    { intros H. apply IH with (pre := pre ++ b); auto; [rewrite <- app_assoc; exact Eo|rewrite app_length; lia|cbn in Hf; lia]. }
    destruct Hr as [Hr|[-> Hpos]].
    + rewrite Hr. cbn [negb]. rewrite IH'; auto.
    + destruct (oid_relative o); cbn [negb]; [rewrite IH'; auto|].
      destruct (Nat.eqb_spec pos 0); [lia|]. rewrite IH'; [reflexivity|]. right. split; [reflexivity|lia].
Qed.

Lemma sub_items_relative shl7 limit o ns :
  shl7_good shl7 limit -> oid_relative o = true -> subids subid ns (oid_asn1 o) -> Forall (below limit) ns ->
  sub_items shl7 o = ns.
Proof.
  intros Hg Hr Hs Hb. unfold sub_items, sub_new. eapply sub_collect_tail with (pre := []); eauto; try reflexivity.
  apply subids_length in Hs; [lia|]. apply subid_nonempty.
Qed.

Lemma sub_items_absolute shl7 limit o c ns bs :
  shl7_good shl7 limit -> oid_relative o = false -> oid_asn1 o = c :: bs -> subids subid ns bs -> Forall (below limit) ns ->
  sub_items shl7 o = if (c =? 0) && (length bs =? 0)%nat then [0] else c / 40 :: c mod 40 :: ns.
Proof.
  intros Hg Hr Eo Hs Hb. unfold sub_items, sub_new. rewrite Eo. cbn [length].
  remember (S (S (length bs))) as f eqn:Ef. cbn [sub_collect]. unfold sub_next at 1. cbn [sub_oid sub_pos sub_first].
  rewrite Eo, Hr. cbn [length Nat.eqb negb hd]. rewrite Ef. cbn [sub_collect]. unfold sub_next at 1. cbn [sub_oid sub_pos sub_first].
  rewrite Eo, Hr. cbn [length Nat.eqb negb hd].
  destruct ((c =? 0) && (length bs =? 0)%nat) eqn:E.
  - apply andb_prop in E as [E _]. apply N.eqb_eq in E. subst c. reflexivity.
  - f_equal. f_equal.
    assert (T : sub_collect shl7 (S (length bs)) (mk_sub o 1 true) = ns).
    { eapply (sub_collect_tail shl7 limit o 1 true [c] ns bs); auto.
      apply subids_length in Hs; [lia|]. apply subid_nonempty. }
    exact T.
Qed.

(** The size test of [iter]. *)
Lemma arc_bits_step_eq mx cur b :
  arc_bits_step (mx, cur) b = if b <? 128 then (N.max mx (cur + 7), 0) else (mx, cur + 7).
Proof. unfold arc_bits_step. rewrite shiftr7. destruct (b <? 128); reflexivity. Qed.

Lemma arc_bits_subid n b mx :
  subid n b -> fold_left arc_bits_step b (mx, 0) = (N.max mx (7 * blen b), 0).
Proof.
  intros (ds & d & -> & F & Hd & _).
  assert (G : forall cur, fold_left arc_bits_step (map (fun x => 128 + x) ds ++ [d]) (mx, cur)
                          = (N.max mx (cur + 7 * blen (map (fun x => 128 + x) ds ++ [d])), 0)).
  { induction F as [|x ds Hx F IH]; intros cur; cbn [map app fold_left]; rewrite arc_bits_step_eq.
    - destruct (N.ltb_spec d 128); [|lia]. cbn [fold_left]. reflexivity.
    - destruct (N.ltb_spec (128 + x) 128); [lia|]. rewrite IH. f_equal. f_equal. rewrite blen_cons. lia. }
  rewrite G. reflexivity.
Qed.

Lemma arc_bits_subids ns bs mx :
  subids subid ns bs ->
  exists m, fold_left arc_bits_step bs (mx, 0) = (m, 0) /\ mx <= m
    /\ (forall limit, m <= limit <-> mx <= limit /\ exists bss, bs = concat bss /\ Forall2 subid ns bss /\ Forall (fun b => 7 * blen b <= limit) bss).
Proof.
  intros H. revert mx. induction H as [|n ns b bs Hn Hs IH]; intros mx.
  - exists mx. split; [reflexivity|]. split; [lia|]. intros limit. split; [|tauto]. intros. split; [assumption|]. exists []. split; [reflexivity|]. split; constructor.
  - rewrite fold_left_app, (arc_bits_subid n b mx Hn). destruct (IH (N.max mx (7 * blen b))) as (m & E & L & I).
    exists m. split; [exact E|]. split; [lia|]. intros limit. rewrite I. split.
    + intros (H1 & bss & -> & F1 & F2). split; [lia|]. exists (b :: bss). split; [reflexivity|]. split; constructor; auto. lia.
    + intros (H1 & bss & E2 & F1 & F2). inversion F1 as [|n' b' ns' bss' G1 G2]; subst. inversion F2; subst.
      cbn [concat] in E2. destruct (subid_det _ _ _ _ _ _ Hn G1 E2) as (-> & _ & ->). split; [lia|]. eauto.
Qed.

(** Sizes of shortest sub-identifiers. *)
Lemma shortest_arc n b : subid_shortest n b -> b = encode_arc n.
Proof.
  intros [(ds & d & -> & F & Hd & E) Hh]. destruct (encode_arc_shortest n) as [(ds' & d' & E' & F' & Hd' & En) Hh'].
  rewrite E' in *. assert (N1 : normal ds) by (destruct ds as [|x ds]; [exact I|cbn in *; lia]).
  assert (N2 : normal ds') by (destruct ds' as [|x ds']; [exact I|cbn in *; lia]).
  rewrite En in E. rewrite !value_be_snoc in E. assert (d = d' /\ value_be 128 ds = value_be 128 ds') as [-> EE] by lia.
  rewrite (normal_unique 128 ds ds'); auto; lia.
Qed.

Lemma arc_octets_le n k : (1 <= k)%nat -> ((arc_octets n <= k)%nat <-> n < 2 ^ (7 * N.of_nat k)).
Proof.
  intros Hk. destruct (arc_octets_bound n) as [B1 B2]. change 128 with (2 ^ 7) in *. rewrite <- !N.pow_mul_r in *. split.
  - intros H. eapply N.lt_le_trans; [exact B1|]. apply N.pow_le_mono_r; lia.
  - intros H. destruct B2 as [B2|B2]; [lia|]. assert (L : 2 ^ (7 * (N.of_nat (arc_octets n) - 1)) < 2 ^ (7 * N.of_nat k)) by lia.
    apply N.pow_lt_mono_r_iff in L; lia.
Qed.

(** Decimal text. *)
Lemma decimal_loop_ok fuel n acc :
  n < 10 ^ N.of_nat fuel -> (1 <= fuel)%nat ->
  exists ds, decimal_loop fuel n acc = map (fun d => 48 + d) ds ++ acc
    /\ Forall (fun d => d < 10) ds /\ n = value_be 10 ds /\ (ds = [0] \/ hd 0 ds <> 0).
Proof.
  revert n acc. induction fuel as [|fuel IH]; intros n acc H Hf; [lia|]. cbn [decimal_loop].
  destruct (N.ltb_spec n 10).
  - exists [n]. rewrite N.mod_small by assumption. split; [reflexivity|]. split; [repeat constructor; assumption|].
    split; [reflexivity|]. cbn. destruct (N.eq_dec n 0) as [->|]; auto.
  - replace (N.of_nat (S fuel)) with (N.succ (N.of_nat fuel)) in H by lia. rewrite N.pow_succ_r' in H.
    destruct fuel as [|fuel]; [change (10 ^ N.of_nat 0) with 1 in H; lia|].
    destruct (IH (n / 10) (48 + n mod 10 :: acc)) as (ds & -> & F & V & Hh); [lia|lia|].
    exists (ds ++ [n mod 10]). rewrite map_app, <- app_assoc. split; [reflexivity|].
    split; [apply Forall_app; split; [exact F|constructor; [lia|constructor]]|].
    split; [rewrite value_be_snoc, <- V; lia|]. right. destruct ds as [|d ds]; [cbn in V; lia|].
    cbn. destruct Hh as [Hh|Hh]; [injection Hh as -> ->; cbn in V; lia|exact Hh].
Qed.

Lemma decimal_ok n : decimal_text n (decimal n).
Proof.
  unfold decimal. destruct (decimal_loop_ok (S (N.to_nat (N.size n))) n []) as (ds & -> & F & V & H); [|lia|].
  - eapply N.lt_le_trans; [apply N.size_gt|]. eapply N.le_trans; [apply N.pow_le_mono_l; instantiate (1 := 10); lia|].
    apply N.pow_le_mono_r; lia.
  - exists ds. rewrite app_nil_r. auto.
Qed.

Lemma fold10_ge ds acc : acc <= fold_left (fun acc d => acc * 10 + d) ds acc.
Proof. revert acc. induction ds as [|d ds IH]; intros acc; cbn; [lia|]. specialize (IH (acc * 10 + d)). lia. Qed.

Lemma parse_digits_ok limit ds acc :
  Forall (fun d => d < 10) ds -> fold_left (fun acc d => acc * 10 + d) ds acc < limit ->
  parse_digits limit acc (map (fun d => 48 + d) ds) = Some (fold_left (fun acc d => acc * 10 + d) ds acc).
Proof.
  intros F. revert acc. induction F as [|d ds Hd F IH]; intros acc H; [reflexivity|].
  cbn [map parse_digits fold_left] in *. pose proof (fold10_ge ds (acc * 10 + d)).
  destruct ((48 <=? 48 + d) && (48 + d <=? 57)) eqn:E; [|lia]. replace (48 + d - 48) with d by lia.
  destruct (N.leb_spec limit (acc * 10 + d)); [lia|]. apply IH. exact H.
Qed.

Lemma parse_uint_ok limit n s : decimal_text n s -> n < limit -> parse_uint limit s = Some n.
Proof.
  intros (ds & -> & F & -> & H) Hn. assert (Hne : ds <> []) by (destruct H as [->|H]; [discriminate|intros ->; apply H; reflexivity]).
  pose proof (parse_digits_ok limit ds 0 F Hn) as E. fold (value_be 10 ds) in E.
  destruct ds as [|d [|d2 ds]]; [congruence| |].
  - cbn [map] in *. unfold parse_uint. inversion F; subst. destruct ((48 + d =? 43) || (48 + d =? 45)) eqn:E2; [lia|]. exact E.
  - cbn [map] in *. unfold parse_uint. inversion F; subst. destruct (N.eqb_spec (48 + d) 43) as [E2|_]; [lia|]. exact E.
Qed.

Lemma decimal_no_dot n s : decimal_text n s -> Forall (fun c => c <> 46) s /\ s <> [].
Proof.
  intros (ds & -> & F & _ & H). split.
  - apply Forall_forall. intros c Hc. apply in_map_iff in Hc as (d & <- & _). lia.
  - destruct ds; [destruct H as [H|H]; [discriminate|cbn in H; congruence]|discriminate].
Qed.

Lemma split_dot_nonempty s : split_dot s <> [].
Proof. destruct s as [|c r]; [discriminate|]. cbn [split_dot]. destruct (c =? 46); [discriminate|]. destruct (split_dot r); discriminate. Qed.

Lemma split_dot_one s : Forall (fun c => c <> 46) s -> split_dot s = [s].
Proof.
  induction 1 as [|c s Hc _ IH]; [reflexivity|]. cbn [split_dot]. destruct (N.eqb_spec c 46); [congruence|]. rewrite IH. reflexivity.
Qed.

Lemma split_dot_cons s r : Forall (fun c => c <> 46) s -> split_dot (s ++ 46 :: r) = s :: split_dot r.
Proof.
  induction 1 as [|c s Hc _ IH]; [reflexivity|]. cbn [app split_dot]. destruct (N.eqb_spec c 46); [congruence|]. rewrite IH. reflexivity.
Qed.

Lemma split_join l : l <> [] -> Forall (Forall (fun c => c <> 46)) l -> split_dot (join_dot l) = l.
Proof.
  intros Hne F. induction F as [|x l Hx F IH]; [congruence|]. destruct l as [|y l].
  - cbn. apply split_dot_one. exact Hx.
  - cbn [join_dot]. change (split_dot (x ++ 46 :: join_dot (y :: l)) = x :: y :: l).
    rewrite split_dot_cons by exact Hx. rewrite IH by discriminate. reflexivity.
Qed.

Lemma join_dotted ns : ns <> [] -> dotted ns (join_dot (map decimal ns)).
Proof.
  intros Hne. induction ns as [|n ns IH]; [congruence|]. destruct ns as [|m ns].
  - cbn. constructor. apply decimal_ok.
  - change (join_dot (map decimal (n :: m :: ns))) with (decimal n ++ 46 :: join_dot (map decimal (m :: ns))).
    constructor; [apply decimal_ok|]. apply IH. discriminate.
Qed.

Lemma parse_dotted limit ns s : dotted ns s -> Forall (fun n => n < limit) ns ->
  all_some (map (parse_uint limit) (split_dot s)) = Some ns.
Proof.
  induction 1 as [n s H|n s ns r H _ IH]; intros F; inversion F; subst.
  - rewrite split_dot_one by (eapply decimal_no_dot; exact H). cbn [map all_some]. rewrite (parse_uint_ok _ _ _ H) by assumption. reflexivity.
  - rewrite split_dot_cons by (eapply decimal_no_dot; exact H). cbn [map all_some]. rewrite (parse_uint_ok _ _ _ H) by assumption.
    rewrite IH by assumption. reflexivity.
Qed.

(** The macro's base-128 encoding. *)
Lemma base128_loop_ok fuel v ds d :
  v < 2 ^ (7 * N.of_nat fuel) -> Forall (fun x => x < 128) ds -> (v = 0 -> normal ds) ->
  exists ds', base128_loop fuel v (map (fun x => 128 + x) ds ++ [d]) = map (fun x => 128 + x) ds' ++ [d]
    /\ Forall (fun x => x < 128) ds' /\ normal ds' /\ value_be 128 ds' = v * 128 ^ blen ds + value_be 128 ds.
Proof.
  revert v ds. induction fuel as [|fuel IH]; intros v ds Hv F Hn.
  - assert (v = 0) by (change (2 ^ (7 * N.of_nat 0)) with 1 in Hv; lia). subst v. exists ds. cbn. auto.
  - cbn [base128_loop]. destruct (N.eqb_spec v 0) as [->|Hne]; [exists ds; rewrite N.mul_0_l, N.add_0_l; auto|].
    rewrite land_7f. replace (N.lor (v mod 128) 0x80) with (128 + v mod 128).
    2:{ rewrite N.lor_comm. change (N.lor 0x80 (v mod 128)) with (N.lor (1 * 2 ^ 7) (v mod 128)).
        rewrite lor_add by (change (2 ^ 7) with 128; lia). reflexivity. }
    rewrite N.shiftr_div_pow2. change (2 ^ 7) with 128.
    change (128 + v mod 128 :: map (fun x => 128 + x) ds ++ [d]) with (map (fun x => 128 + x) (v mod 128 :: ds) ++ [d]).
    destruct (IH (v / 128) (v mod 128 :: ds)) as (ds' & E & F' & N' & V').
    + replace (7 * N.of_nat (S fuel)) with (7 + 7 * N.of_nat fuel) in Hv by lia. rewrite N.pow_add_r in Hv.
      change (2 ^ 7) with 128 in Hv. lia.
    + constructor; [lia|exact F].
    + intros E. cbn. lia.
    + exists ds'. split; [exact E|]. split; [exact F'|]. split; [exact N'|]. rewrite V', value_be_cons, blen_cons.
      rewrite N.pow_add_r, N.pow_1_r. fold (blen ds).
      set (P := 128 ^ blen ds). set (q := v / 128). set (r := v mod 128).
      assert (Ev : v = 128 * q + r) by (unfold q, r; lia). rewrite Ev. nia.
Qed.

Lemma encode_base128_ok n : encode_base128 n = encode_arc n.
Proof.
  apply shortest_arc. unfold encode_base128. rewrite land_7f, N.shiftr_div_pow2. change (2 ^ 7) with 128.
  destruct (base128_loop_ok (N.to_nat (N.size n)) (n / 128) [] (n mod 128)) as (ds & E & F & Nm & V).
  - eapply N.le_lt_trans; [apply N.div_le_upper_bound with (q := n); lia|].
    eapply N.lt_le_trans; [apply N.size_gt|]. apply N.pow_le_mono_r; lia.
  - constructor.
  - intros _. exact I.
  - cbn [map app] in E. rewrite E. split.
    + exists ds, (n mod 128). split; [reflexivity|]. split; [exact F|]. split; [lia|]. rewrite value_be_snoc, V, blen_nil, N.pow_0_r.
      change (value_be 128 []) with 0. lia.
    + destruct ds as [|x ds]; cbn in *; lia.
Qed.

Lemma subid_one n : n < 128 -> subid_shortest n [n].
Proof.
  intros H. split; [|cbn; lia]. exists [], n. split; [reflexivity|]. split; [constructor|]. split; [exact H|]. reflexivity.
Qed.

(** What [u64::from_str] accepts. *)
Lemma parse_digits_iff limit s : forall acc n, acc < limit ->
  (parse_digits limit acc s = Some n <->
   exists ds, s = map (fun d => 48 + d) ds /\ Forall (fun d => d < 10) ds /\ n = fold_left (fun a d => a * 10 + d) ds acc /\ n < limit).
Proof.
  induction s as [|c s IH]; intros acc n Ha; cbn [parse_digits].
  - split.
    + intros E. injection E as <-. exists []. split; [reflexivity|]. split; [constructor|]. split; [reflexivity|exact Ha].
    + intros (ds & E & _ & -> & _). destruct ds; [reflexivity|discriminate].
  - destruct ((48 <=? c) && (c <=? 57)) eqn:B.
    + destruct (N.leb_spec limit (acc * 10 + (c - 48))) as [L|L].
      * split; [discriminate|]. intros (ds & E & F & -> & Hn). destruct ds as [|d ds]; [discriminate|]. injection E as E1 E2.
        subst c. cbn [fold_left] in Hn. pose proof (fold10_ge ds (acc * 10 + d)). lia.
      * rewrite IH by exact L. split.
        -- intros (ds & -> & F & -> & Hn). exists (c - 48 :: ds). split; [cbn; f_equal; lia|]. split; [constructor; [lia|exact F]|]. split; [reflexivity|exact Hn].
        -- intros (ds & E & F & -> & Hn). destruct ds as [|d ds]; [discriminate|]. injection E as E1 E2. inversion F; subst.
           exists ds. split; [reflexivity|]. split; [assumption|]. cbn [fold_left] in *. replace (48 + d - 48) with d by lia. auto.
    + split; [discriminate|]. intros (ds & E & F & _). destruct ds as [|d ds]; [discriminate|]. injection E as E1 E2. inversion F; subst. lia.
Qed.

Lemma parse_uint_iff limit s n : 0 < limit -> (parse_uint limit s = Some n <-> numeral n s /\ n < limit).
Proof.
  intros H0. unfold numeral.
  assert (G : forall c r, parse_digits limit 0 (c :: r) = Some n <->
     exists ds, c :: r = map (fun d => 48 + d) ds /\ Forall (fun d => d < 10) ds /\ n = value_be 10 ds /\ n < limit).
  { intros c r. rewrite parse_digits_iff by exact H0. unfold value_be. reflexivity. }
  assert (K : forall c r, (exists sign ds, c :: r = sign ++ map (fun d => 48 + d) ds /\ (sign = [] \/ sign = [43]) /\ ds <> []
      /\ Forall (fun d => d < 10) ds /\ n = value_be 10 ds) /\ n < limit <->
     (exists ds, c :: r = map (fun d => 48 + d) ds /\ Forall (fun d => d < 10) ds /\ n = value_be 10 ds /\ n < limit)
     \/ c = 43 /\ r <> [] /\ exists ds, r = map (fun d => 48 + d) ds /\ Forall (fun d => d < 10) ds /\ n = value_be 10 ds /\ n < limit).
  { intros c r. split.
    - intros [(sign & ds & E & [->| ->] & Hne & F & Hn) Hl]; [left; exists ds; auto|]. injection E as -> ->.
      right. split; [reflexivity|]. split; [destruct ds; [congruence|discriminate]|]. exists ds. auto.
    - intros [(ds & E & F & Hn & Hl)|(-> & Hr & ds & -> & F & Hn & Hl)]; (split; [|exact Hl]).
      + exists [], ds. split; [exact E|]. split; [auto|]. split; [destruct ds; [discriminate|discriminate]|auto].
      + exists [43], ds. split; [reflexivity|]. split; [auto|]. split; [destruct ds; [cbn in Hr; congruence|discriminate]|auto]. }
  destruct s as [|c [|c' r]].
  - cbn. split; [discriminate|]. intros [(sign & ds & E & _ & Hne & _) _]. destruct sign; [|discriminate]. destruct ds; [congruence|discriminate].
  - rewrite K. unfold parse_uint. destruct ((c =? 43) || (c =? 45)) eqn:E.
    + split; [discriminate|]. intros [(ds & E' & F & _)|(_ & Hr & _)]; [|congruence].
      destruct ds as [|d ds]; [discriminate|]. injection E' as -> _. inversion F; subst. lia.
    + rewrite G. split; [auto|]. intros [H|(-> & Hr & _)]; [exact H|congruence].
  - rewrite K. unfold parse_uint. destruct (N.eqb_spec c 43) as [->|Hc].
    + rewrite G. split.
      * intros H. right. split; [reflexivity|]. split; [discriminate|exact H].
      * intros [(ds & E' & F & _)|(_ & _ & H)]; [|exact H]. destruct ds as [|d ds]; [discriminate|]. injection E' as E' _. inversion F; subst. lia.
    + rewrite G. split; [auto|]. intros [H|[E _]]; [exact H|congruence].
Qed.

Lemma numeral_no_dot n s : numeral n s -> Forall (fun c => c <> 46) s.
Proof.
  intros (sign & ds & -> & Hs & _ & F & _). apply Forall_app. split; [destruct Hs as [->| ->]; repeat constructor; lia|].
  clear - F. induction F; cbn; constructor; [lia|assumption].
Qed.

Lemma split_dot_inv s : exists a, (s = a /\ split_dot s = [a] \/ exists r, s = a ++ 46 :: r /\ split_dot s = a :: split_dot r /\ (length r < length s)%nat)
  /\ Forall (fun c => c <> 46) a.
Proof.
  induction s as [|c s (a & H & F)].
  - exists []. split; [left; auto|constructor].
  - cbn [split_dot]. destruct (N.eqb_spec c 46) as [->|Hc].
    + exists []. split; [right; exists s; split; [reflexivity|]; split; [reflexivity|cbn; lia]|constructor].
    + exists (c :: a). split; [|constructor; assumption]. destruct H as [[-> ->]|(r & -> & -> & L)]; [left; auto|].
      right. exists r. split; [reflexivity|]. split; [reflexivity|]. cbn in *. lia.
Qed.

Lemma all_uint_iff limit : 0 < limit -> forall k s ns, (length s <= k)%nat ->
  (all_some (map (parse_uint limit) (split_dot s)) = Some ns <-> dotted_numerals ns s /\ Forall (fun n => n < limit) ns).
Proof.
  intros H0. induction k as [|k IH]; intros s ns Hk.
  - destruct s; [|cbn in Hk; lia]. cbn [split_dot map all_some]. change (parse_uint limit []) with (@None N).
    split; [discriminate|]. intros [D _]. inversion D as [n s Hn|n s ns' r Hn D' E]; subst; [|destruct s; discriminate].
    destruct Hn as (sign & ds & E & _ & Hne & _). destruct sign; [|discriminate]. destruct ds; [congruence|discriminate].
  - destruct (split_dot_inv s) as (a & H & F). split.
    + intros E. destruct H as [[-> Es]|(r & -> & Es & L)]; rewrite Es in E; cbn [map all_some] in E.
      * destruct (parse_uint limit a) as [n|] eqn:P; [|discriminate]. injection E as <-.
        apply parse_uint_iff in P as [P1 P2]; [|exact H0]. split; [constructor; exact P1|constructor; [exact P2|constructor]].
      * destruct (parse_uint limit a) as [n|] eqn:P; [|discriminate]. destruct (all_some _) as [ns'|] eqn:Er; [|discriminate].
        injection E as <-. apply IH in Er as [D Fn]; [|lia]. apply parse_uint_iff in P as [P1 P2]; [|exact H0].
        split; [constructor; assumption|constructor; assumption].
    + intros [D Fn]. inversion D as [n s' Hn|n s' ns' r Hn D' E]; subst.
      * rewrite split_dot_one by (eapply numeral_no_dot; exact Hn). cbn [map all_some]. inversion Fn; subst.
        rewrite (proj2 (parse_uint_iff limit s n H0)) by auto. reflexivity.
      * rewrite split_dot_cons by (eapply numeral_no_dot; exact Hn). cbn [map all_some]. inversion Fn; subst.
        rewrite (proj2 (parse_uint_iff limit s' n H0)) by auto.
        rewrite (proj2 (IH r ns' ltac:(rewrite app_length in Hk; cbn in Hk; lia))) by auto. reflexivity.
Qed.
