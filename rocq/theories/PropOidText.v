(** Object identifiers built from any accepted list of arcs: exactly what comes back (C22) and exactly whose
    text can be read again (C25). *)
From Verif Require Import Base MHeader MEncode SHeader PArith PHeader PEncode MBer SBer PBer PIter
  MInt SInt PCodec PInt PropInt MSeg SSeg PropSeg MOid SOid POid PropOid.

(** The arcs which come back: 0 for 0.0, and 0.0 to 0.23 for 6.16 to 6.39. *)
Definition back (s : list N) : list N :=
  match s with
  | x :: b :: r => if (x =? 6) && (16 <=? b)
                   then (if (b =? 16) && match r with [] => true | _ => false end then [0] else 0 :: b - 16 :: r)
                   else if (x =? 0) && (b =? 0) && match r with [] => true | _ => false end then [0] else s
  | _ => s
  end.

Lemma wrapped b r : b < 40 -> 16 <= b -> oid_from (6 :: b :: r) = oid_from (0 :: b - 16 :: r).
Proof.
  intros Hb Hc. cbn [oid_from]. destruct (N.leb_spec 40 b), (N.leb_spec 40 (b - 16)); try lia.
  replace ((6 * 40 + b) mod 256) with ((0 * 40 + (b - 16)) mod 256) by lia. reflexivity.
Qed.

Theorem C22_exact (s : list N) (o : oid) : oid_from s = inl o ->
  (oid_arcs o = if forallb (fun n => n <? 2 ^ 63) (tl (tl s)) then Some (back s) else None)
  /\ oid_arcs_bigint o = back s.
Proof.
  assert (P : forall a b r o, a < 7 -> b < 40 -> 40 * a + b < 256 -> a :: b :: r <> [0; 0] -> oid_from (a :: b :: r) = inl o ->
     oid_arcs o = (if forallb (fun n => n <? 2 ^ 63) r then Some (a :: b :: r) else None) /\ oid_arcs_bigint o = a :: b :: r).
  { intros a b r o' Ha Hb Hc Hn E. destruct (C22_oid_arcs_partial a b r Ha Hb Hc Hn) as (o2 & E2 & F1 & F2 & B).
    rewrite E in E2. injection E2 as <-. split; [|exact B]. destruct (forallb _ r) eqn:F.
    - apply F1. rewrite forallb_forall in F. apply Forall_forall. intros x Hx. apply N.ltb_lt. auto.
    - apply F2. apply Exists_exists. clear - F. induction r as [|x r IH]; [discriminate|]. cbn [forallb] in F.
      destruct (N.ltb_spec x (2 ^ 63)).
      + destruct (IH F) as (y & Hy & L). exists y. split; [right; exact Hy|exact L].
      + exists x. split; [left; reflexivity|assumption]. }
  assert (Z : forall o, oid_from [0; 0] = inl o -> oid_arcs o = Some [0] /\ oid_arcs_bigint o = [0]).
  { intros o' E. vm_compute in E. injection E as <-. split; vm_compute; reflexivity. }
  intros E. destruct s as [|x [|b r]].
  - discriminate.
  - cbn [oid_from] in E. destruct (N.eqb_spec x 0) as [->|]; [|discriminate]. injection E as <-. split; vm_compute; reflexivity.
  - assert (x < 7 /\ b < 40) as [Hx Hb].
    { cbn [oid_from] in E. destruct (N.leb_spec 7 x), (N.leb_spec 40 b); cbn [orb] in E; try discriminate. lia. }
    cbn [back tl]. destruct (N.eqb_spec x 6) as [->|Hx6]; destruct (N.leb_spec 16 b); cbn [andb].
    + rewrite wrapped in E by assumption. destruct (N.eqb_spec b 16) as [->|Hb16]; cbn [andb].
      * destruct r as [|y r]; [apply Z; exact E|]. apply P; try lia; [discriminate|exact E].
      * apply P; try lia; [|exact E]. intros Q. injection Q as Q _. lia.
    + apply P; try lia; [discriminate|exact E].
    + destruct (N.eqb_spec x 0) as [->|]; destruct (N.eqb_spec b 0) as [->|]; cbn [andb]; try lia; apply P; try lia; try exact E;
        intros Q; injection Q; intros; lia.
    + destruct (N.eqb_spec x 0) as [->|]; destruct (N.eqb_spec b 0) as [->|]; cbn [andb];
        try (apply P; try lia; try exact E; intros Q; injection Q; intros; lia).
      destruct r as [|y r]; [apply Z; exact E|]. apply P; try lia; [discriminate|exact E].
Qed.
Print Assumptions C22_exact.

Example C22_exact_case : exists o, oid_from [6; 39; 840; 7] = inl o /\ back [6; 39; 840; 7] = [0; 23; 840; 7]
  /\ oid_arcs o = Some [0; 23; 840; 7].
Proof. eexists. repeat split; vm_compute; reflexivity. Qed.

(** *** The text of which identifiers can be read *)

Lemma no_space ns t : dotted_numerals ns t -> ~ In 32 t.
Proof.
  assert (M : forall n s, numeral n s -> ~ In 32 s).
  { intros n s (sign & ds & -> & Sg & _ & F & _) I. apply in_app_or in I as [I|I].
    - destruct Sg as [-> | ->]; cbn in I; [exact I|]. destruct I as [I|[]]. discriminate.
    - apply in_map_iff in I as (d & D & _). lia. }
  induction 1 as [n s Hn|n s ns r Hn _ IH]; [exact (M _ _ Hn)|].
  intros I. apply in_app_or in I as [I|[I|I]]; [exact (M _ _ Hn I)|discriminate|exact (IH I)].
Qed.

(** Default features: exactly when no arc after the second needs 64 bits.  With feature [bigint]: always. *)
Theorem C25_exact (s : list N) (o : oid) : oid_from s = inl o -> Forall (fun n => n < 2 ^ 64) s ->
  (oid_from_str (to_id_string o) = inl o <-> Forall (fun n => n < 2 ^ 63) (tl (tl s)))
  /\ ((exists p, oid_from_str (to_id_string o) = inl p) -> oid_from_str (to_id_string o) = inl o)
  /\ oid_from_str (to_id_string_bigint o) = inl o.
Proof.
  intros E B. assert (W : (exists p, oid_from_str (to_id_string o) = inl p) -> Forall (fun n => n < 2 ^ 63) (tl (tl s))).
  { intros (p & R). destruct (C22_exact s o E) as [A _]. destruct (forallb _ (tl (tl s))) eqn:F.
    - rewrite forallb_forall in F. apply Forall_forall. intros x Hx. apply N.ltb_lt. auto.
    - exfalso. apply C25_from_str_accept in R as (arcs & D & _). apply no_space in D. apply D. unfold to_id_string. rewrite A.
      destruct s as [|a [|b r]]; [discriminate F|discriminate F|]. destruct r as [|c r]; [discriminate F|].
      cbn [oid_from] in E. destruct ((7 <=? a) || (40 <=? b)); [discriminate|]. injection E as <-. cbn [oid_asn1].
      pose proof (subids_length subid (c :: r) _ subid_nonempty (encode_relative_subid (c :: r))) as L2.
      change (encode_arc c ++ encode_relative r) with (encode_relative (c :: r)).
      destruct (encode_relative (c :: r)) as [|y ys]; [cbn [length] in L2; lia|]. cbn [hex_spaced]. apply in_or_app. right. left. reflexivity. }
  split; [|split].
  - split; [intros R; apply W; exists o; exact R|apply C25_text_roundtrip_partial; exact E].
  - intros R. apply (C25_text_roundtrip_partial s); [exact E|apply W; exact R].
  - apply (C25_text_roundtrip_bigint s); assumption.
Qed.
Print Assumptions C25_exact.

Example C25_exact_case : exists o, oid_from [2; 5; 2 ^ 63 - 1; 4] = inl o /\ Forall (fun n => n < 2 ^ 64) [2; 5; 2 ^ 63 - 1; 4]
  /\ oid_from_str (to_id_string o) = inl o.
Proof. eexists. split; [reflexivity|]. split; [repeat constructor|vm_compute; reflexivity]. Qed.
