(** C41, any number of calls to [next] of an iterator over an input with a position. *)
From Verif Require Import Base PArith MHeader MEncode SHeader PHeader PEncode MBer SBer PBer PIter PCodec PropBer.
From Verif Require Import MInt MCont MSpan SSpan PSpan PropSpan.

(** [n] calls to [next]. *)
Fixpoint s_calls (p : input -> sres (input * sany)) (n : nat) (s : siter) : list (option (sres (input * sany))) * siter :=
  match n with
  | O => ([], s)
  | S n => let (x, s1) := s_iter_next p s in
           let (xs, s2) := s_calls p n s1 in
           (x :: xs, s2)
  end.

(** The items lie in [whole] one after the other from [pos] on, up to [last]; errors lie in [whole]. *)
Fixpoint row (whole : bytes) (pos last : N) (xs : list (option (sres (input * sany)))) : Prop :=
  match xs with
  | [] => pos = last
  | Some (SOk (item, a)) :: xs => in_start item = pos /\ located whole item /\ Forall (located whole) (inputs YAny a)
                                  /\ row whole (in_end item) last xs
  | Some (SErr at_ _) :: xs => located whole at_ /\ row whole pos last xs
  | _ :: xs => row whole pos last xs
  end.

Definition plain_mode (der : bool) : bytes -> res (bytes * any) := if der then any_parse_der else any_parse_ber.
Definition span_mode (der : bool) : input -> sres (input * sany) := if der then s_parse_der s_any_parser else s_parse_ber s_any_parser.

Lemma s_next_sim der whole s x s' :
  small whole -> located whole (si_input s) -> s_iter_next (span_mode der) s = (x, s') ->
  iter_next (plain_mode der) (mk_iter (in_data (si_input s)) (si_has_error s))
  = (option_map (forget dataO) x, mk_iter (in_data (si_input s')) (si_has_error s'))
  /\ located whole (si_input s') /\ in_end (si_input s') = in_end (si_input s)
  /\ row whole (in_start (si_input s)) (in_start (si_input s')) [x].
Proof.
  intros W L E. unfold s_iter_next in E. unfold iter_next. cbn [it_input it_has_error].
  destruct (si_has_error s || (blen (in_data (si_input s)) =? 0)) eqn:Z.
  { injection E as <- <-. cbn. auto. }
  assert (S : sim whole dataO (any_item whole (si_input s)) (span_mode der (si_input s)) (plain_mode der (in_data (si_input s)))).
  { destruct der; [apply any_parse_der_sim|apply any_parse_ber_sim]; assumption. }
  pose proof (sim_forget _ _ _ _ _ S) as F.
  destruct (span_mode der (si_input s)) as [[rem obj]|at_ e|n|] eqn:P; cbn [forget] in F; rewrite <- F.
  - destruct (sim_prop _ _ _ _ _ _ S eq_refl) as [[R1 [R2 R3]] [G1 G2]]. cbn [fst snd] in *.
    pose proof (suffix_len whole (si_input s) rem L (conj R1 (conj R2 R3))) as [N1 N2].
    unfold usize_sub in E. destruct (N.leb_spec (in_start (si_input s)) (in_start rem)); [|lia]. cbn [sbind] in E.
    destruct (located_take whole (si_input s) (in_start rem - in_start (si_input s)) W L) as (y & T & D & Sy & Fy & Gy); [lia|].
    rewrite T in E. injection E as <- <-. cbn [option_map forget dataO fst snd si_input si_has_error row].
    split.
    { unfold dataO. cbn [fst snd]. rewrite D, N1. unfold blen. do 6 f_equal. lia. }
    split; [exact R1|]. split; [exact R2|]. split; [exact Sy|]. split; [exact Gy|]. split; [|lia].
    cbn [inputs]. apply Forall_app. split; [|repeat constructor; exact G2].
    unfold raw_of, header_located in *. destruct (sh_raw (sa_header obj)); constructor; auto.
  - injection E as <- <-. cbn [option_map forget si_input si_has_error row]. split; [reflexivity|].
    split; [exact L|]. split; [reflexivity|]. split; [exact (sim_error _ _ _ _ _ _ _ S eq_refl)|reflexivity].
  - injection E as <- <-. cbn [option_map forget si_input si_has_error row]. auto.
  - injection E as <- <-. cbn [option_map forget si_input si_has_error row]. auto.
Qed.

Lemma row_app whole xs ys a b c : row whole a b xs -> row whole b c ys -> row whole a c (xs ++ ys).
Proof.
  revert a. induction xs as [|x xs IH]; intros a; cbn [app row].
  - intros ->. auto.
  - destruct x as [[[item o]|at_ e|n|]|]; intros H H2; try (apply IH; tauto); intuition.
Qed.

(** The calls give what the iterator without positions gives, with items in a row from the start of the input. *)
Theorem C41_walk (whole : bytes) (der : bool) (i : input) (n : nat) :
  blen whole < 2 ^ 64 -> located whole i ->
  let (xs, s) := s_calls (span_mode der) n (siter_new i) in
  let (ys, t) := iter_calls (plain_mode der) n (iter_new (in_data i)) in
  ys = map (option_map (forget dataO)) xs /\ it_input t = in_data (si_input s) /\ it_has_error t = si_has_error s
  /\ row whole (in_start i) (in_start (si_input s)) xs /\ located whole (si_input s) /\ in_end (si_input s) = in_end i.
Proof.
  intros W L. unfold siter_new, iter_new.
  change (mk_iter (in_data i) false) with (mk_iter (in_data (si_input (mk_siter i false))) (si_has_error (mk_siter i false))).
  assert (G : forall s, located whole (si_input s) ->
    let (xs, s') := s_calls (span_mode der) n s in
    let (ys, t) := iter_calls (plain_mode der) n (mk_iter (in_data (si_input s)) (si_has_error s)) in
    ys = map (option_map (forget dataO)) xs /\ it_input t = in_data (si_input s') /\ it_has_error t = si_has_error s'
    /\ row whole (in_start (si_input s)) (in_start (si_input s')) xs /\ located whole (si_input s')
    /\ in_end (si_input s') = in_end (si_input s)); [|exact (G (mk_siter i false) L)].
  clear L i. induction n as [|n IH]; intros s L; cbn [s_calls iter_calls]; [cbn; auto 8|].
  destruct (s_iter_next (span_mode der) s) as [x s1] eqn:E. destruct (s_next_sim der whole s x s1 W L E) as (-> & L1 & E1 & R1).
  specialize (IH s1 L1). destruct (s_calls (span_mode der) n s1) as [xs s2].
  destruct (iter_calls (plain_mode der) n (mk_iter (in_data (si_input s1)) (si_has_error s1))) as [ys t].
  destruct IH as (-> & I1 & I2 & R2 & L2 & E2). split; [reflexivity|]. split; [exact I1|]. split; [exact I2|].
  split; [exact (row_app whole [x] xs _ _ _ R1 R2)|]. split; [exact L2|lia].
Qed.
Print Assumptions C41_walk.

Example C41_walk_case :
  let i := mk_input [2; 1; 5; 4; 0; 2; 3; 9] 3 11 in
  map (option_map (fun r => match r with SOk (x, _) => Some (in_start x, in_end x) | SErr x _ => Some (in_start x, in_end x) | _ => None end))
    (fst (s_calls (span_mode true) 4 (siter_new i)))
  = [Some (Some (3, 6)); Some (Some (6, 8)); Some (Some (8, 11)); None]
  /\ located ([0; 0; 0] ++ in_data i) i.
Proof. split; [vm_compute; reflexivity|]. exists [0; 0; 0], []. cbn. auto. Qed.
