(** Proofs about UTCTime and GeneralizedTime: reading and writing time texts; counting days. *)
From Verif Require Import Base MHeader MEncode SHeader PArith PHeader PEncode MBer MInt MOid SOid POid MText MTime STime.

(** ** Digits *)

Lemma digit_iff b : is_digit b = true <-> exists d, d < 10 /\ b = 48 + d.
Proof.
  unfold is_digit. rewrite andb_true_iff, !N.leb_le. split; [|intros (d & H & ->); lia].
  intros H. exists (b - 48). lia.
Qed.

Lemma fixed2 n a b :
  fixed 2 n [a; b] <-> exists x y, x < 10 /\ y < 10 /\ a = 48 + x /\ b = 48 + y /\ n = x * 10 + y.
Proof.
  split.
  - intros (ds & E & F & L & V). destruct ds as [|x [|y [|z ds]]]; try discriminate. cbn in E. injection E as -> ->.
    inversion F as [|? ? Fx F']; subst. inversion F' as [|? ? Fy _]; subst. exists x, y. unfold value_be. cbn [fold_left]. repeat split; lia.
  - intros (x & y & Hx & Hy & -> & -> & ->). exists [x; y]. split; [reflexivity|]. split; [repeat constructor; assumption|].
    split; [reflexivity|]. unfold value_be. cbn [fold_left]. lia.
Qed.

Lemma decode_decimal_ok a b n : decode_decimal a b = Ok n <-> fixed 2 n [a; b].
Proof.
  unfold decode_decimal. rewrite fixed2. destruct (is_digit a && is_digit b) eqn:E.
  - apply andb_true_iff in E as [Ea Eb]. apply digit_iff in Ea as (x & Hx & ->). apply digit_iff in Eb as (y & Hy & ->). split.
    + intros H. injection H as <-. exists x, y. repeat split; try assumption. lia.
    + intros (x' & y' & Hx' & Hy' & Ex & Ey & ->). f_equal. lia.
  - split; [discriminate|]. intros (x & y & Hx & Hy & -> & -> & _). exfalso. apply andb_false_iff in E as [E|E].
    + assert (is_digit (48 + x) = true) by (apply digit_iff; eauto). congruence.
    + assert (is_digit (48 + y) = true) by (apply digit_iff; eauto). congruence.
Qed.

Lemma fixed_two n s : fixed 2 n s -> exists a b, s = [a; b].
Proof. intros (ds & -> & _ & L & _). destruct ds as [|x [|y [|z ds]]]; try discriminate. eexists _, _. reflexivity. Qed.

Lemma fixed_app k l m n a b :
  fixed k m a -> fixed l n b -> fixed (k + l) (m * 10 ^ N.of_nat l + n) (a ++ b).
Proof.
  intros (ds & -> & F & L & ->) (es & -> & G & M & ->). exists (ds ++ es). rewrite map_app. split; [reflexivity|].
  split; [apply Forall_app; auto|]. split; [rewrite app_length; congruence|]. rewrite value_be_app, M. reflexivity.
Qed.

Lemma fixed_four n a b c d :
  fixed 4 n [a; b; c; d] <-> exists x y, fixed 2 x [a; b] /\ fixed 2 y [c; d] /\ n = x * 100 + y.
Proof.
  split.
  - intros (ds & E & F & L & V). destruct ds as [|p [|q [|r [|s [|t ds]]]]]; try discriminate. cbn in E. injection E as -> -> -> ->.
    inversion F as [|? ? Fp F1]; subst. inversion F1 as [|? ? Fq F2]; subst. inversion F2 as [|? ? Fr F3]; subst.
    inversion F3 as [|? ? Fs _]; subst. exists (p * 10 + q), (r * 10 + s). split; [|split].
    + apply fixed2. exists p, q. repeat split; assumption.
    + apply fixed2. exists r, s. repeat split; assumption.
    + unfold value_be. cbn [fold_left]. lia.
  - intros (x & y & Hx & Hy & ->). exact (fixed_app 2 2 x y [a; b] [c; d] Hx Hy).
Qed.

Lemma fixed_length w n s : fixed w n s -> length s = w.
Proof. intros (ds & -> & _ & L & _). rewrite map_length. exact L. Qed.

Lemma map48_inj xs ys : map (fun d => 48 + d) xs = map (fun d => 48 + d) ys -> xs = ys.
Proof.
  revert ys. induction xs as [|x xs IH]; intros [|y ys] E; cbn in E; try discriminate; [reflexivity|].
  injection E as E1 E2. f_equal; [lia|auto].
Qed.

Lemma fixed_fun w n m s : fixed w n s -> fixed w m s -> n = m.
Proof. intros (ds & -> & _ & _ & ->) (es & E & _ & _ & ->). apply map48_inj in E. subst. reflexivity. Qed.

Lemma fixed_inj w n s t : fixed w n s -> fixed w n t -> s = t.
Proof.
  intros (ds & -> & F & L & ->) (es & -> & G & M & E). f_equal. apply (value_be_inj 10); try assumption; [lia|congruence].
Qed.

Lemma fixed_bound w n s : fixed w n s -> n < 10 ^ N.of_nat w.
Proof. intros (ds & -> & F & <- & ->). apply value_be_bound; [lia|exact F]. Qed.

(** ** Padding *)

Lemma decimal_digits n k :
  1 <= k -> (k = 1 \/ 10 ^ (k - 1) <= n) -> n < 10 ^ k ->
  exists ds, decimal n = map (fun d => 48 + d) ds /\ Forall (fun d => d < 10) ds /\ blen ds = k /\ n = value_be 10 ds.
Proof.
  intros Hk Hlo Hhi. destruct (decimal_ok n) as (ds & -> & F & V & H). exists ds. split; [reflexivity|]. split; [exact F|].
  split; [|exact V]. destruct H as [->|H].
  - cbn in V. subst n. destruct Hlo as [->|Hlo]; [reflexivity|].
    assert (10 ^ (k - 1) <> 0) by (apply N.pow_nonzero; lia). lia.
  - destruct ds as [|d ds]; [exfalso; apply H; reflexivity|].
    assert (Hn : normal (d :: ds)) by exact H.
    pose proof (normal_lower 10 (d :: ds) ltac:(lia) ltac:(discriminate) Hn) as B1. rewrite <- V in B1.
    pose proof (value_be_bound 10 (d :: ds) ltac:(lia) F) as B2. rewrite <- V in B2. fold (blen (d :: ds)) in B2.
    assert (1 <= blen (d :: ds)) by (rewrite blen_cons; lia).
    assert (L1 : 10 ^ (blen (d :: ds) - 1) < 10 ^ k) by lia. apply N.pow_lt_mono_r_iff in L1; [|lia].
    destruct Hlo as [->|Hlo]; [lia|].
    assert (L2 : 10 ^ (k - 1) < 10 ^ blen (d :: ds)) by lia. apply N.pow_lt_mono_r_iff in L2; lia.
Qed.

Lemma decimal_short n w : (1 <= w)%nat -> n < 10 ^ N.of_nat w -> (length (decimal n) <= w)%nat.
Proof.
  intros Hw Hn. destruct (decimal_ok n) as (ds & -> & F & V & H). rewrite map_length. destruct H as [->|H]; [cbn; lia|].
  destruct ds as [|d ds]; [cbn; lia|].
  pose proof (normal_lower 10 (d :: ds) ltac:(lia) ltac:(discriminate) H) as B1. rewrite <- V in B1.
  assert (L1 : 10 ^ (blen (d :: ds) - 1) < 10 ^ N.of_nat w) by lia. apply N.pow_lt_mono_r_iff in L1; [|lia].
  unfold blen in L1. lia.
Qed.

Lemma value_be_zeros b k ds : value_be b (repeat 0 k ++ ds) = value_be b ds.
Proof.
  induction k as [|k IH]; [reflexivity|]. cbn [repeat app]. rewrite value_be_cons, IH. lia.
Qed.

Lemma pad_fixed w n : (1 <= w)%nat -> n < 10 ^ N.of_nat w -> fixed w n (pad w n).
Proof.
  intros Hw Hn. pose proof (decimal_short n w Hw Hn) as L. unfold pad. destruct (decimal_ok n) as (ds & E & F & V & _). rewrite E in *.
  rewrite map_length in L |- *. exists (repeat 0 (w - length ds) ++ ds). rewrite map_app. split.
  - f_equal. induction (w - length ds)%nat as [|k IH]; [reflexivity|]. cbn. rewrite IH. reflexivity.
  - split; [apply Forall_app; split; [apply Forall_forall; intros x Hx; apply repeat_spec in Hx; lia|exact F]|].
    split; [rewrite app_length, repeat_length; lia|]. rewrite value_be_zeros. exact V.
Qed.

Lemma pad2 n : n < 100 -> fixed 2 n (pad 2 n).
Proof. intros H. apply pad_fixed; [lia|exact H]. Qed.
Lemma pad4 n : n < 10000 -> fixed 4 n (pad 4 n).
Proof. intros H. apply pad_fixed; [lia|exact H]. Qed.

(** ** Reading *)

Lemma time_seconds_ok rem sec r :
  time_seconds rem = Ok (sec, r) <->
  (exists c, rem = [c] /\ sec = 0 /\ r = [c]) \/ (exists a, fixed 2 sec a /\ rem = a ++ r).
Proof.
  destruct rem as [|x [|y rem]]; cbn [time_seconds].
  - split; [discriminate|]. intros [(c & E & _)|(a & F & E)]; [discriminate|]. apply fixed_two in F as (p & q & ->). discriminate.
  - split; [intros E; injection E as <- <-; left; eauto|]. intros [(c & E & -> & ->)|(a & F & E)]; [congruence|].
    apply fixed_two in F as (p & q & ->). discriminate.
  - rewrite bind_ok. split.
    + intros (n & E & H). injection H as <- <-. apply decode_decimal_ok in E. right. exists [x; y]. auto.
    + intros [(c & E & _)|(a & F & E)]; [discriminate|]. destruct (fixed_two _ _ F) as (p & q & ->). cbn in E.
      injection E as <- <- <-. exists sec. split; [apply decode_decimal_ok; exact F|reflexivity].
Qed.

Lemma signed_text_iff c h m s :
  signed_text c h m s <-> exists h1 h2 m1 m2, s = [c; h1; h2; m1; m2] /\ fixed 2 h [h1; h2] /\ fixed 2 m [m1; m2].
Proof.
  split.
  - intros (a & b & Fa & Fb & ->). destruct (fixed_two _ _ Fa) as (? & ? & ->), (fixed_two _ _ Fb) as (? & ? & ->).
    eexists _, _, _, _. repeat split; assumption.
  - intros (h1 & h2 & m1 & m2 & -> & Fh & Fm). exists [h1; h2], [m1; m2]. auto.
Qed.

Lemma offset_bind (f : Z -> Z) h1 h2 m1 m2 z :
  (let* hh := decode_decimal h1 h2 in let* mm := decode_decimal m1 m2 in Ok (TzOffset (f (Z.of_N hh)) (Z.of_N mm))) = Ok z <->
  exists h m, fixed 2 h [h1; h2] /\ fixed 2 m [m1; m2] /\ z = TzOffset (f (Z.of_N h)) (Z.of_N m).
Proof.
  rewrite bind_ok. split.
  - intros (h & Eh & H). apply bind_ok in H as (m & Em & H). injection H as <-. exists h, m.
    split; [apply decode_decimal_ok; exact Eh|]. split; [apply decode_decimal_ok; exact Em|reflexivity].
  - intros (h & m & Fh & Fm & ->). exists h. split; [apply decode_decimal_ok; exact Fh|]. apply bind_ok. exists m.
    split; [apply decode_decimal_ok; exact Fm|reflexivity].
Qed.

Lemma time_zone_ok rem z :
  time_zone rem = Ok z <-> exists zn, zn <> Local /\ zone_text zn rem /\ z = zone_value zn.
Proof.
  split.
  - intros E. destruct rem as [|a [|b [|c [|d [|e [|f rem]]]]]]; try discriminate; cbn [time_zone] in E.
    + destruct (N.eqb_spec a 90) as [->|]; [|discriminate]. injection E as <-. exists Utc. repeat split. discriminate.
    + destruct (N.eqb_spec a 43) as [->|].
      * apply (offset_bind (fun x => x)) in E as (h & m & Fh & Fm & ->). exists (East h m). split; [discriminate|].
        split; [|reflexivity]. cbn [zone_text]. apply signed_text_iff. eauto 8.
      * destruct (N.eqb_spec a 45) as [->|]; [|discriminate].
        apply (offset_bind Z.opp) in E as (h & m & Fh & Fm & ->). exists (West h m). split; [discriminate|].
        split; [|reflexivity]. cbn [zone_text]. apply signed_text_iff. eauto 8.
  - intros (zn & Hl & T & ->). destruct zn as [| |h m|h m]; cbn [zone_text] in T; [congruence| | |].
    + subst rem. reflexivity.
    + apply signed_text_iff in T as (h1 & h2 & m1 & m2 & -> & Fh & Fm). cbn. apply (offset_bind (fun x => x)). eauto 8.
    + apply signed_text_iff in T as (h1 & h2 & m1 & m2 & -> & Fh & Fm). cbn. apply (offset_bind Z.opp). eauto 8.
Qed.

(** What follows the digits of a fraction: nothing, or a character that starts a zone. *)
Definition after_fraction (k : nat) (r : list N) : Prop :=
  (r = [] /\ k <> 0%nat) \/ (exists c r', r = c :: r' /\ (c = 90 \/ c = 43 \/ c = 45) /\ (k < 4)%nat).

Lemma frac_loop_ok rem : forall idx fs f k r,
  (idx <= 4)%nat ->
  (frac_loop idx fs rem = Ok (f, k, r) <->
   exists ds, Forall (fun d => d < 10) ds /\ rem = map (fun d => 48 + d) ds ++ r /\ k = (idx + length ds)%nat /\ (k <= 4)%nat
     /\ f = fold_left (fun acc d => acc * 10 + d) ds fs /\ after_fraction k r).
Proof.
  induction rem as [|b rem IH]; intros idx fs f k r Hi; cbn [frac_loop].
  - destruct (Nat.eqb_spec idx 0) as [->|Hz].
    + split; [discriminate|]. intros (ds & _ & E & -> & _ & _ & A). destruct ds; [|discriminate]. cbn in E. subst r.
      destruct A as [[_ A]|(c & r' & A & _)]; [cbn in A; congruence|discriminate].
    + split.
      * intros E. injection E as <- <- <-. exists []. split; [constructor|]. split; [reflexivity|]. split; [cbn; lia|]. split; [exact Hi|].
        split; [reflexivity|]. left. auto.
      * intros (ds & _ & E & -> & _ & -> & A). destruct ds; [|discriminate]. cbn in E. subst r. cbn. rewrite Nat.add_0_r. reflexivity.
  - assert (HZ : forall c : N, c = 90 \/ c = 43 \/ c = 45 -> is_digit c = false) by (intros c [->|[->| ->]]; reflexivity).
    destruct (Nat.eqb_spec idx 4) as [->|H4].
    + split; [discriminate|]. intros (ds & _ & E & -> & L & _ & A). destruct ds; [|cbn in L; lia]. cbn in E. subst r.
      destruct A as [[A _]|(c & r' & A & _ & L')]; [discriminate|cbn in L'; lia].
    + destruct (is_digit b) eqn:Db.
      * apply digit_iff in Db as (x & Hx & ->). rewrite IH by lia. replace (48 + x - 48) with x by lia. split.
        -- intros (ds & F & -> & -> & L & -> & A). exists (x :: ds). split; [constructor; assumption|]. split; [reflexivity|].
           split; [cbn; lia|]. split; [exact L|]. split; [reflexivity|exact A].
        -- intros (ds & F & E & -> & L & -> & A). destruct ds as [|y ds].
           ++ cbn in E. subst r. exfalso. destruct A as [[A _]|(c & r' & A & Hc & _)]; [discriminate|]. injection A as <- _.
              assert (is_digit (48 + x) = true) by (apply digit_iff; eauto). rewrite (HZ _ Hc) in H. discriminate.
           ++ cbn in E. injection E as E ->. assert (x = y) by lia. subst y. exists ds. inversion F; subst.
              split; [assumption|]. split; [reflexivity|]. split; [cbn; lia|]. split; [exact L|]. split; [reflexivity|exact A].
      * assert (Hd : forall ds, Forall (fun d => d < 10) ds -> b :: rem = map (fun d => 48 + d) ds ++ r -> ds = []).
        { intros [|y ds] F E; [reflexivity|]. cbn in E. injection E as -> _. inversion F; subst.
          assert (is_digit (48 + y) = true) by (apply digit_iff; eauto). congruence. }
        destruct ((b =? 90) || (b =? 43) || (b =? 45)) eqn:Eb.
        -- rewrite !orb_true_iff, !N.eqb_eq in Eb. split.
           ++ intros E. injection E as <- <- <-. exists []. split; [constructor|]. split; [reflexivity|]. split; [cbn; lia|].
              split; [exact Hi|]. split; [reflexivity|]. right. exists b, rem. split; [reflexivity|]. split; [tauto|lia].
           ++ intros (ds & F & E & -> & _ & -> & _). pose proof (Hd ds F E) as ->. cbn in E. subst r. cbn. rewrite Nat.add_0_r. reflexivity.
        -- split; [discriminate|]. intros (ds & F & E & -> & _ & _ & A). pose proof (Hd ds F E) as ->. cbn in E. subst r.
           destruct A as [[A _]|(c & r' & A & Hc & _)]; [discriminate|]. injection A as <- _.
           exfalso. destruct Hc as [->|[->| ->]]; discriminate.
Qed.

Lemma time_fraction_ok rem ms r :
  time_fraction rem = Ok (ms, r) <->
  (ms = None /\ r = rem /\ hd 0 rem <> 46 /\ hd 0 rem <> 44) \/
  (exists c ds, (c = 46 \/ c = 44) /\ Forall (fun d => d < 10) ds /\ rem = c :: map (fun d => 48 + d) ds ++ r
     /\ (length ds <= 4)%nat /\ after_fraction (length ds) r /\ ms = Some (read_fraction ds)).
Proof.
  destruct rem as [|c rem]; cbn [time_fraction hd].
  - split.
    + intros E. injection E as <- <-. left. repeat split; discriminate.
    + intros [(-> & -> & _)|(c & ds & _ & _ & E & _)]; [reflexivity|discriminate].
  - destruct ((c =? 46) || (c =? 44)) eqn:Ec.
    + rewrite orb_true_iff, !N.eqb_eq in Ec. rewrite bind_ok. split.
      * intros ([[f k] r'] & E & H). injection H as <- <-. apply frac_loop_ok in E as (ds & F & -> & -> & L & -> & A); [|lia].
        right. exists c, ds. cbn [Nat.add] in *. repeat split; try assumption.
      * intros [(_ & _ & H1 & H2)|(c' & ds & Hc & F & E & L & A & ->)]; [tauto|]. injection E as <- ->.
        exists (value_be 10 ds, length ds, r). split; [|reflexivity]. apply frac_loop_ok; [lia|]. exists ds. repeat split; assumption.
    + rewrite orb_false_iff, !N.eqb_neq in Ec. split.
      * intros E. injection E as <- <-. left. tauto.
      * intros [(-> & -> & _)|(c' & ds & Hc & F & E & L & A & ->)]; [reflexivity|]. injection E as <- _. tauto.
Qed.

Lemma read_fraction_thousandths ds : (length ds <= 3)%nat -> read_fraction ds = thousandths ds.
Proof.
  unfold read_fraction, thousandths. intros L. destruct ds as [|a [|b [|c [|d ds]]]]; cbn [length] in *; [..|lia].
  - reflexivity.
  - change (10 ^ N.of_nat 1) with 10. lia.
  - change (10 ^ N.of_nat 2) with 100. lia.
  - change (10 ^ N.of_nat 3) with 1000. lia.
Qed.

Lemma time_in_range_iff mo d h mi s :
  time_in_range mo d h mi s = true <-> mo <= 12 /\ d <= 31 /\ h <= 23 /\ mi <= 59 /\ s <= 59.
Proof. unfold time_in_range. rewrite negb_true_iff, !orb_false_iff, !N.ltb_ge. lia. Qed.

Lemma zone_text_start z s : z <> Local -> zone_text z s -> exists c r, s = c :: r /\ (c = 90 \/ c = 43 \/ c = 45).
Proof.
  intros Hl T. destruct z; cbn [zone_text] in T; [congruence|subst s; eauto|..];
    apply signed_text_iff in T as (h1 & h2 & m1 & m2 & -> & _); eauto 8.
Qed.

Lemma utc_from_bytes_ok s t :
  utc_from_bytes s = Ok t <-> exists w, utc_text_of w s /\ in_range w /\ utc_supported w /\ t = fields w.
Proof.
  split.
  - intros E. unfold utc_from_bytes in E. do 10 (destruct s as [|? s]; [discriminate|]).
    apply bind_ok in E as (y & Ey & E). apply bind_ok in E as (mo & Emo & E). apply bind_ok in E as (d & Ed & E).
    apply bind_ok in E as (h & Eh & E). apply bind_ok in E as (mi & Emi & E). apply bind_ok in E as ([sec r] & Es & E).
    apply decode_decimal_ok in Ey, Emo, Ed, Eh, Emi. apply time_seconds_ok in Es.
    destruct (time_in_range mo d h mi sec) eqn:R; cbn [negb] in E; [|discriminate]. apply time_in_range_iff in R.
    apply bind_ok in E as (z & Ez & E). apply time_zone_ok in Ez as (zn & Hl & Tz & ->). injection E as <-.
    destruct Es as [(c & -> & -> & ->)|(a & Fa & ->)].
    + exists (mk_written y mo d h mi None None zn). unfold utc_text_of, utc_supported, in_range, seconds, fields. cbn.
      assert (zn = Utc).
      { destruct zn; cbn [zone_text] in Tz; [congruence|reflexivity|..]; apply signed_text_iff in Tz as (? & ? & ? & ? & ? & _); discriminate. }
      split; [|split; [exact R|split; [auto|reflexivity]]]. split; [|split; [reflexivity|exact Hl]].
      eexists _, _, _, _, _, [], [], [c]. do 5 (split; [eassumption|]). split; [reflexivity|]. split; [reflexivity|]. split; [exact Tz|reflexivity].
    + exists (mk_written y mo d h mi (Some sec) None zn). unfold utc_text_of, utc_supported, in_range, seconds, fields. cbn.
      split; [|split; [exact R|split; [discriminate|reflexivity]]]. split; [|split; [reflexivity|exact Hl]].
      eexists _, _, _, _, _, a, [], r. do 5 (split; [eassumption|]). split; [exact Fa|]. split; [reflexivity|]. split; [exact Tz|reflexivity].
  - intros (w & (T & Hf & Hl) & R & S & ->).
    destruct T as (y & mo & d & h & mi & sec & fr & z & Fy & Fmo & Fd & Fh & Fmi & Fs & Ff & Fz & ->).
    destruct (fixed_two _ _ Fy) as (y1 & y2 & ->), (fixed_two _ _ Fmo) as (mo1 & mo2 & ->), (fixed_two _ _ Fd) as (d1 & d2 & ->),
      (fixed_two _ _ Fh) as (h1 & h2 & ->), (fixed_two _ _ Fmi) as (mi1 & mi2 & ->).
    rewrite Hf in Ff. cbn in Ff. subst fr. cbn [app utc_from_bytes].
    rewrite (proj2 (decode_decimal_ok _ _ _) Fy), (proj2 (decode_decimal_ok _ _ _) Fmo), (proj2 (decode_decimal_ok _ _ _) Fd),
      (proj2 (decode_decimal_ok _ _ _) Fh), (proj2 (decode_decimal_ok _ _ _) Fmi). cbn [bind].
    assert (Es : time_seconds (sec ++ z) = Ok (seconds w, z)).
    { apply time_seconds_ok. unfold seconds. destruct (w_second w) as [n|] eqn:Ew; cbn in Fs.
      - right. exists sec. auto.
      - subst sec. specialize (S Ew). rewrite S in Fz. cbn in Fz. subst z. left. exists 90. auto. }
    rewrite Es. cbn [bind]. rewrite (proj2 (time_in_range_iff _ _ _ _ _) R). cbn [negb].
    rewrite (proj2 (time_zone_ok z (zone_value (w_zone w)))) by eauto. cbn [bind]. unfold fields. rewrite Hf. reflexivity.
Qed.

Lemma gen_from_bytes_ok s t :
  gen_from_bytes s = Ok t <-> exists w, gen_text_of w s /\ in_range w /\ gen_supported w /\ t = fields w.
Proof.
  split.
  - intros E. unfold gen_from_bytes in E. do 12 (destruct s as [|? s]; [discriminate|]).
    apply bind_ok in E as (y1 & Ey1 & E). apply bind_ok in E as (y2 & Ey2 & E). cbv zeta in E.
    apply bind_ok in E as (mo & Emo & E). apply bind_ok in E as (d & Ed & E).
    apply bind_ok in E as (h & Eh & E). apply bind_ok in E as (mi & Emi & E). apply bind_ok in E as ([sec r] & Es & E).
    apply decode_decimal_ok in Ey1, Ey2, Emo, Ed, Eh, Emi. apply time_seconds_ok in Es.
    destruct (time_in_range mo d h mi sec) eqn:R; cbn [negb] in E; [|discriminate]. apply time_in_range_iff in R.
    pose proof (proj2 (fixed_four _ _ _ _ _) (ex_intro _ y1 (ex_intro _ y2 (conj Ey1 (conj Ey2 eq_refl))))) as Ey.
    assert (Fin : forall ss frac zn st ft zt,
       second_text ss st -> frac_text frac ft -> zone_text zn zt -> s = st ++ ft ++ zt ->
       sec = seconds (mk_written (y1 * 100 + y2) mo d h mi ss frac zn) ->
       gen_supported (mk_written (y1 * 100 + y2) mo d h mi ss frac zn) ->
       t = fields (mk_written (y1 * 100 + y2) mo d h mi ss frac zn) ->
       exists w, gen_text_of w (n :: n0 :: n1 :: n2 :: n3 :: n4 :: n5 :: n6 :: n7 :: n8 :: n9 :: n10 :: s)
         /\ in_range w /\ gen_supported w /\ t = fields w).
    { intros ss frac zn st ft zt T1 T2 T3 -> -> S ->. exists (mk_written (y1 * 100 + y2) mo d h mi ss frac zn).
      split; [|split; [exact R|split; [exact S|reflexivity]]].
      eexists _, _, _, _, _, st, ft, zt. do 5 (split; [cbn; eassumption|]). split; [exact T1|]. split; [exact T2|]. split; [exact T3|reflexivity]. }
    destruct Es as [(c & -> & -> & ->)|(a & Fa & ->)].
    + cbn [blen length] in E. change (blen [c] =? 0) with false in E. cbn iota in E.
      apply bind_ok in E as ([ms r] & Ef & E). apply time_fraction_ok in Ef as [(-> & -> & _)|(c' & ds & _ & _ & Ec & _ & A & _)].
      * change (blen [c] =? 0) with false in E. cbn iota in E.
        apply bind_ok in E as (z & Ez & E). apply time_zone_ok in Ez as (zn & Hl & Tz & ->). injection E as <-.
        assert (zn = Utc).
        { destruct zn; cbn [zone_text] in Tz; [congruence|reflexivity|..]; apply signed_text_iff in Tz as (? & ? & ? & ? & ? & _); discriminate. }
        subst zn. apply (Fin None None Utc [] [] [c]); try reflexivity; [exact Tz|]. split; [auto|exact I].
      * injection Ec as _ Ec. destruct ds; [|discriminate]. cbn in Ec. subst r. destruct A as [[_ A]|(? & ? & A & _)]; [cbn in A; congruence|discriminate].
    + destruct r as [|b r].
      * change (blen [] =? 0) with true in E. cbn iota in E. injection E as <-.
        apply (Fin (Some sec) None Local a [] []); try reflexivity; [exact Fa|]. split; [discriminate|exact I].
      * replace (blen (b :: r) =? 0) with false in E by (symmetry; apply N.eqb_neq; rewrite blen_cons; lia).
        apply bind_ok in E as ([ms r'] & Ef & E). apply time_fraction_ok in Ef as [(-> & -> & _)|(c' & ds & Hc & F & Ec & L & A & ->)].
        -- replace (blen (b :: r) =? 0) with false in E by (symmetry; apply N.eqb_neq; rewrite blen_cons; lia).
           apply bind_ok in E as (z & Ez & E). apply time_zone_ok in Ez as (zn & Hl & Tz & ->). injection E as <-.
           apply (Fin (Some sec) None zn a [] (b :: r)); try reflexivity; [exact Fa|exact Tz|]. split; [discriminate|exact I].
        -- rewrite Ec in *. destruct (N.eqb_spec (blen r') 0) as [Er|Er].
           ++ destruct r' as [|? r']; [|rewrite blen_cons in Er; lia]; clear Er. injection E as <-.
              apply (Fin (Some sec) (Some ds) Local a (c' :: map (fun d => 48 + d) ds) []); try reflexivity; [exact Fa|..].
              ** split; [exact F|]. eauto.
              ** split; [discriminate|]. cbn. destruct A as [[_ A]|(? & ? & A & _)]; [|discriminate]. split; [lia|congruence].
           ++ apply bind_ok in E as (z & Ez & E). apply time_zone_ok in Ez as (zn & Hl & Tz & ->). injection E as <-.
              apply (Fin (Some sec) (Some ds) zn a (c' :: map (fun d => 48 + d) ds) r'); try reflexivity; [exact Fa| |exact Tz|].
              ** split; [exact F|]. eauto.
              ** split; [discriminate|]. cbn. destruct A as [[-> _]|(? & ? & _ & _ & A)]; [exfalso; apply Er; reflexivity|]. split; [congruence|lia].
  - intros (w & T & R & [S1 S2] & ->).
    destruct T as (y & mo & d & h & mi & sec & fr & z & Fy & Fmo & Fd & Fh & Fmi & Fs & Ff & Fz & ->).
    pose proof (fixed_length _ _ _ Fy) as Ly. destruct y as [|ya [|yb [|yc [|yd [|ye y]]]]]; try discriminate.
    apply fixed_four in Fy as (ya' & yb' & Fya & Fyb & Ey).
    destruct (fixed_two _ _ Fmo) as (mo1 & mo2 & ->), (fixed_two _ _ Fd) as (d1 & d2 & ->),
      (fixed_two _ _ Fh) as (h1 & h2 & ->), (fixed_two _ _ Fmi) as (mi1 & mi2 & ->).
    cbn [app gen_from_bytes].
    rewrite (proj2 (decode_decimal_ok _ _ _) Fya), (proj2 (decode_decimal_ok _ _ _) Fyb), (proj2 (decode_decimal_ok _ _ _) Fmo),
      (proj2 (decode_decimal_ok _ _ _) Fd), (proj2 (decode_decimal_ok _ _ _) Fh), (proj2 (decode_decimal_ok _ _ _) Fmi). cbn [bind].
    rewrite <- Ey.
    assert (Es : time_seconds (sec ++ fr ++ z) = Ok (seconds w, fr ++ z)).
    { apply time_seconds_ok. unfold seconds. destruct (w_second w) as [n|] eqn:Ew; cbn in Fs.
      - right. exists sec. auto.
      - subst sec. destruct (S1 eq_refl) as [S3 S4]. rewrite S3 in Fz. cbn in Fz. subst z. rewrite S4 in Ff. cbn in Ff. subst fr. left. exists 90. auto. }
    rewrite Es. cbn [bind]. rewrite (proj2 (time_in_range_iff _ _ _ _ _) R). cbn [negb].
    assert (Hz : w_zone w = Local /\ z = [] \/ w_zone w <> Local).
    { destruct (w_zone w); cbn in Fz; [left; auto|right; discriminate..]. }
    assert (Hn : forall (c : N) r, blen (c :: r) =? 0 = false) by (intros c r; apply N.eqb_neq; rewrite blen_cons; lia).
    unfold fields. destruct (w_fraction w) as [ds|]; cbn in Ff.
    + destruct Ff as (F & c & Hc & ->). cbn [app]. rewrite Hn. destruct S2 as [S2 S3].
      assert (Et : time_fraction (c :: map (fun d => 48 + d) ds ++ z) = Ok (Some (read_fraction ds), z)).
      { apply time_fraction_ok. right. exists c, ds. split; [exact Hc|]. split; [exact F|]. split; [reflexivity|].
        destruct Hz as [[E1 ->]|E1].
        - specialize (S2 E1). split; [lia|]. split; [left; split; [reflexivity|lia]|reflexivity].
        - specialize (S3 E1). split; [lia|]. split; [|reflexivity]. right. destruct (zone_text_start _ _ E1 Fz) as (c' & r & -> & Hc').
          exists c', r. split; [reflexivity|]. split; [exact Hc'|lia]. }
      rewrite Et. cbn [bind]. destruct Hz as [[-> ->]|E1]; [reflexivity|].
      destruct (zone_text_start _ _ E1 Fz) as (c' & r & -> & Hc'). rewrite Hn.
      rewrite (proj2 (time_zone_ok _ (zone_value (w_zone w)))) by eauto. reflexivity.
    + subst fr. cbn [app]. destruct Hz as [[-> ->]|E1]; [reflexivity|].
      destruct (zone_text_start _ _ E1 Fz) as (c' & r & -> & Hc'). rewrite Hn.
      assert (Et : time_fraction (c' :: r) = Ok (None, c' :: r)).
      { apply time_fraction_ok. left. cbn. repeat split; destruct Hc' as [->|[->| ->]]; discriminate. }
      rewrite Et. cbn [bind]. rewrite Hn.
      rewrite (proj2 (time_zone_ok _ (zone_value (w_zone w)))) by eauto. reflexivity.
Qed.

(** The characters of a time are visible. *)
Lemma fixed_visible w n s : fixed w n s -> Forall (fun c => 32 <= c <= 126) s.
Proof. intros (ds & -> & F & _). apply Forall_map. eapply Forall_impl; [|exact F]. cbn. lia. Qed.

Lemma time_text_visible n w s : time_text n w s -> Forall (fun c => 32 <= c <= 126) s.
Proof.
  intros (y & mo & d & h & mi & sec & fr & z & Fy & Fmo & Fd & Fh & Fmi & Fs & Ff & Fz & ->).
  rewrite !Forall_app. repeat split; try (eapply fixed_visible; eassumption).
  - destruct (w_second w); cbn in Fs; [eapply fixed_visible; eassumption|subst; constructor].
  - destruct (w_fraction w); cbn in Ff; [|subst; constructor]. destruct Ff as (F & c & Hc & ->).
    constructor; [lia|]. apply Forall_map. eapply Forall_impl; [|exact F]. cbn. lia.
  - assert (Hs : forall c h m, 32 <= c <= 126 -> signed_text c h m z -> Forall (fun c => 32 <= c <= 126) z).
    { intros c h' m' Hc (a & b & Fa & Fb & ->). constructor; [exact Hc|]. apply Forall_app. split; eapply fixed_visible; eassumption. }
    destruct (w_zone w); cbn in Fz; [subst; constructor|subst; repeat constructor; lia|eapply Hs; [|exact Fz]; lia..].
Qed.

(** ** Days *)

Definition model_days (y : Z) (m d : N) : Z := (days_before_year y + days_before_month y m + Z.of_N d - 1)%Z.

Lemma month_cases m : 1 <= m <= 12 -> In m [1; 2; 3; 4; 5; 6; 7; 8; 9; 10; 11; 12].
Proof. intros H. cbn. lia. Qed.

Lemma leap_year_iff y : leap_year y = ((y mod 4 =? 0) && negb (y mod 100 =? 0) || (y mod 400 =? 0))%Z.
Proof.
  unfold leap_year. destruct (Z.eqb_spec (y mod 4) 0), (Z.eqb_spec (y mod 100) 0), (Z.eqb_spec (y mod 400) 0);
    cbn; try reflexivity; exfalso; Z.to_euclidean_division_equations; lia.
Qed.

Lemma month_length_model y m : 1 <= m <= 12 -> days_in_month y m = month_length y m.
Proof.
  intros H. unfold days_in_month, month_length. rewrite <- leap_year_iff. apply month_cases in H. cbn in H.
  repeat (destruct H as [<-|H]; [cbn; destruct (leap_year y); reflexivity|]). destruct H.
Qed.

Lemma div_step y k : (0 < k)%Z -> (y / k = (y - 1) / k + if y mod k =? 0 then 1 else 0)%Z.
Proof.
  intros Hk. destruct (Z.eqb_spec (y mod k) 0) as [E|E].
  - pose proof (Z.div_mod y k ltac:(lia)) as H. rewrite E in H.
    assert ((y - 1) / k = y / k - 1)%Z; [|lia]. symmetry. apply Z.div_unique_pos with (r := (k - 1)%Z); lia.
  - pose proof (Z.div_mod y k ltac:(lia)) as H. pose proof (Z.mod_pos_bound y k Hk). rewrite Z.add_0_r.
    apply Z.div_unique_pos with (r := (y mod k - 1)%Z); lia.
Qed.

Lemma days_before_year_succ y : days_before_year (y + 1) = (days_before_year y + 365 + if leap_year y then 1 else 0)%Z.
Proof.
  unfold days_before_year. rewrite leap_year_iff. replace (y + 1 - 1)%Z with y by lia.
  rewrite (div_step y 4), (div_step y 100), (div_step y 400) by lia.
  assert ((y mod 100 = 0 -> y mod 4 = 0) /\ (y mod 400 = 0 -> y mod 100 = 0))%Z
    by (split; intros; Z.to_euclidean_division_equations; lia).
  destruct (Z.eqb_spec (y mod 4) 0), (Z.eqb_spec (y mod 100) 0), (Z.eqb_spec (y mod 400) 0); cbn [andb orb negb]; lia.
Qed.

Lemma days_before_month_succ y m :
  1 <= m < 12 -> days_before_month y (m + 1) = (days_before_month y m + Z.of_N (month_length y m))%Z.
Proof.
  intros H. assert (Hm : In m [1; 2; 3; 4; 5; 6; 7; 8; 9; 10; 11]) by (cbn; lia). cbn in Hm.
  unfold days_before_month, month_length. rewrite <- leap_year_iff.
  repeat (destruct Hm as [<-|Hm]; [cbn; destruct (leap_year y); reflexivity|]). destruct Hm.
Qed.

Lemma model_day_count : day_count model_days.
Proof.
  split; [reflexivity|]. split; [|split].
  - intros y m d _ _. unfold model_days. lia.
  - intros y m H. unfold model_days. rewrite days_before_month_succ by exact H. lia.
  - intros y. unfold model_days. rewrite days_before_year_succ.
    change (days_before_month (y + 1) 1) with 0%Z.
    change (days_before_month y 12) with (334 + if leap_year y then 1 else 0)%Z. destruct (leap_year y); lia.
Qed.

Section Unique.
  Context (D : Z -> N -> N -> Z) (HD : day_count D).

  Lemma D_day y m k : 1 <= m <= 12 -> 1 + k <= month_length y m -> D y m (1 + k) = (D y m 1 + Z.of_N k)%Z.
  Proof.
    intros Hm. induction k as [|k IH] using N.peano_ind; intros Hk; [change (1 + 0) with 1; lia|].
    replace (1 + N.succ k) with (1 + k + 1) by lia. destruct HD as (_ & H & _). rewrite H; [|split; lia|lia].
    rewrite IH by lia. lia.
  Qed.

  Lemma month_length_pos y m : 1 <= m <= 12 -> 28 <= month_length y m.
  Proof.
    intros H. unfold month_length. rewrite <- leap_year_iff. apply month_cases in H. cbn in H.
    repeat (destruct H as [<-|H]; [destruct (leap_year y); vm_compute; discriminate|]). destruct H.
  Qed.

  Lemma D_month y k : k < 12 -> D y (1 + k) 1 = (D y 1 1 + days_before_month y (1 + k))%Z.
  Proof.
    induction k as [|k IH] using N.peano_ind; intros Hk.
    - change (1 + 0) with 1. change (days_before_month y 1) with 0%Z. lia.
    - replace (1 + N.succ k) with (1 + k + 1) by lia. rewrite days_before_month_succ by lia.
      destruct HD as (_ & _ & H & _). rewrite H by lia.
      assert (1 <= 1 + k <= 12) as Hm by lia. pose proof (month_length_pos y (1 + k) Hm).
      replace (D y (1 + k) (month_length y (1 + k))) with (D y (1 + k) (1 + (month_length y (1 + k) - 1))) by (f_equal; lia).
      rewrite D_day by lia. rewrite IH by lia. lia.
  Qed.

  Lemma D_next y : D (y + 1)%Z 1 1 = (D y 1 1 + 365 + if leap_year y then 1 else 0)%Z.
  Proof.
    destruct HD as (_ & _ & _ & H). rewrite H.
    change (D y 12 31) with (D y 12 (1 + 30)). rewrite D_day; [|lia|vm_compute; discriminate].
    change (D y 12 1) with (D y (1 + 11) 1). rewrite D_month by lia. change (days_before_month y (1 + 11)) with (334 + if leap_year y then 1 else 0)%Z. destruct (leap_year y); lia.
  Qed.

  Lemma D_year y : D y 1 1 = days_before_year y.
  Proof.
    assert (U : forall n, D (1970 + Z.of_nat n)%Z 1 1 = days_before_year (1970 + Z.of_nat n)).
    { induction n as [|n IH]; [destruct HD as [H _]; exact H|].
      replace (1970 + Z.of_nat (S n))%Z with (1970 + Z.of_nat n + 1)%Z by lia. rewrite D_next, days_before_year_succ, IH. reflexivity. }
    assert (L : forall n, D (1970 - Z.of_nat n)%Z 1 1 = days_before_year (1970 - Z.of_nat n)).
    { induction n as [|n IH]; [destruct HD as [H _]; exact H|].
      replace (1970 - Z.of_nat n)%Z with (1970 - Z.of_nat (S n) + 1)%Z in IH by lia. rewrite D_next, days_before_year_succ in IH. lia. }
    destruct (Z.le_ge_cases 1970 y) as [H|H].
    - replace y with (1970 + Z.of_nat (Z.to_nat (y - 1970)))%Z by lia. apply U.
    - replace y with (1970 - Z.of_nat (Z.to_nat (1970 - y)))%Z by lia. apply L.
  Qed.

  (** Day counts agree on dates. *)
  Lemma day_count_unique y m d : valid_date y m d -> D y m d = model_days y m d.
  Proof.
    intros [Hm Hd]. replace d with (1 + (d - 1)) by lia. rewrite D_day by lia.
    replace m with (1 + (m - 1)) by lia. rewrite D_month by lia. rewrite D_year. unfold model_days. lia.
  Qed.
End Unique.
