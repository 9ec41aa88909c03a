(** C100: the order of times. *)
From Coq Require Import Lia ZifyBool.
From Verif Require Import Base MHeader SHeader PArith PHeader PInt MTime STime PTime PropTime MOrd PropOrder.

(** ** The order, field by field *)

(** The first difference decides. *)
Definition first_differs (a b : list Z) : Prop :=
  exists p x y r s, a = p ++ x :: r /\ b = p ++ y :: s /\ (x < y)%Z.

(** The fields of a time in the order of the declaration; no milliseconds come before any, and the zones come in the order
    "none", "Z", offsets. *)
Definition time_fields (t : datetime) : list Z :=
  [Z.of_N (dt_year t); Z.of_N (dt_month t); Z.of_N (dt_day t); Z.of_N (dt_hour t); Z.of_N (dt_minute t); Z.of_N (dt_second t);
   match dt_millisecond t with None => -1 | Some v => Z.of_N v end;
   match dt_tz t with TzUndefined => 0 | TzZ => 1 | TzOffset _ _ => 2 end;
   match dt_tz t with TzOffset h _ => h | _ => 0 end; match dt_tz t with TzOffset _ m => m | _ => 0 end]%Z.

Lemma first_differs_cons x y a b : first_differs (x :: a) (y :: b) <-> (x < y)%Z \/ (x = y /\ first_differs a b).
Proof.
  split.
  - intros (p & u & v & r & s & Ea & Eb & H). destruct p as [|z p]; cbn in Ea, Eb; injection Ea as -> ->; injection Eb as -> ->; [left; exact H|].
    right. split; [reflexivity|]. exists p, u, v, r, s. auto.
  - intros [H|[-> (p & u & v & r & s & -> & -> & H)]]; [exists [], x, y, a, b; auto|]. exists (y :: p), u, v, r, s. auto.
Qed.
Lemma first_differs_nil a : ~ first_differs a [].
Proof. intros (p & x & y & r & s & _ & E & _). destruct p; discriminate. Qed.

Lemma then_lt a b : then_cmp a b = Lt <-> a = Lt \/ (a = Eq /\ b = Lt).
Proof. destruct a; cbn; split; intros H; try discriminate; auto; destruct H as [H|[H1 H2]]; try discriminate; auto. Qed.
Lemma then_eq a b : then_cmp a b = Eq <-> a = Eq /\ b = Eq.
Proof. destruct a; cbn; split; intros H; try discriminate; try tauto; destruct H; discriminate. Qed.

Theorem C100_order_exact (a b : datetime) :
  (datetime_cmp a b = Lt <-> first_differs (time_fields a) (time_fields b)) /\ (datetime_cmp a b = Eq <-> a = b)
  /\ datetime_cmp b a = CompOpp (datetime_cmp a b).
Proof.
  split; [|split].
  - unfold datetime_cmp, time_fields. do 7 rewrite first_differs_cons.
    rewrite <- !N2Z.inj_lt, !N2Z.inj_iff, !then_lt, !N.compare_lt_iff, !N.compare_eq_iff.
    assert (M : option_cmp (dt_millisecond a) (dt_millisecond b) = Lt <->
      (match dt_millisecond a with None => -1 | Some v => Z.of_N v end < match dt_millisecond b with None => -1 | Some v => Z.of_N v end)%Z).
    { destruct (dt_millisecond a), (dt_millisecond b); cbn [option_cmp]; rewrite ?N.compare_lt_iff; split; intros; try discriminate; try reflexivity; lia. }
    assert (M' : option_cmp (dt_millisecond a) (dt_millisecond b) = Eq <->
      (match dt_millisecond a with None => -1 | Some v => Z.of_N v end = match dt_millisecond b with None => -1 | Some v => Z.of_N v end)%Z).
    { destruct (dt_millisecond a), (dt_millisecond b); cbn [option_cmp]; rewrite ?N.compare_eq_iff; split; intros; try discriminate; try reflexivity; lia. }
    rewrite M, M'.
    assert (T : tz_cmp (dt_tz a) (dt_tz b) = Lt <->
      first_differs [match dt_tz a with TzUndefined => 0 | TzZ => 1 | TzOffset _ _ => 2 end;
        match dt_tz a with TzOffset h _ => h | _ => 0 end; match dt_tz a with TzOffset _ m => m | _ => 0 end]%Z
       [match dt_tz b with TzUndefined => 0 | TzZ => 1 | TzOffset _ _ => 2 end;
        match dt_tz b with TzOffset h _ => h | _ => 0 end; match dt_tz b with TzOffset _ m => m | _ => 0 end]%Z).
    { rewrite !first_differs_cons. pose proof (first_differs_nil []) as Nil.
      destruct (dt_tz a), (dt_tz b); cbn [tz_cmp]; rewrite ?then_lt, ?Z.compare_lt_iff, ?Z.compare_eq_iff;
        split; intros; try discriminate; try reflexivity; intuition (try lia; try discriminate). }
    rewrite T. reflexivity.
  - unfold datetime_cmp. rewrite !then_eq, !N.compare_eq_iff. split; [|intros ->].
    + intros (H1 & H2 & H3 & H4 & H5 & H6 & H7 & H8). destruct a as [y mo d h mi s ms z], b as [y' mo' d' h' mi' s' ms' z'].
      cbn [dt_year dt_month dt_day dt_hour dt_minute dt_second dt_millisecond dt_tz] in *. subst. f_equal.
      * destruct ms, ms'; cbn in H7; try discriminate; [|reflexivity]. apply N.compare_eq_iff in H7. subst. reflexivity.
      * destruct z, z'; cbn in H8; try discriminate; try reflexivity. apply then_eq in H8. destruct H8 as [A B].
        apply Z.compare_eq_iff in A, B. subst. reflexivity.
    + do 6 (split; [reflexivity|]). split; [destruct (dt_millisecond b); cbn; [apply N.compare_refl|reflexivity]|].
      destruct (dt_tz b); cbn; try reflexivity. rewrite !Z.compare_refl. reflexivity.
  - unfold datetime_cmp.
    assert (Th : forall x y x' y', x' = CompOpp x -> y' = CompOpp y -> then_cmp x' y' = CompOpp (then_cmp x y))
      by (intros [] y x' y' -> ->; reflexivity).
    do 6 (apply Th; [apply N.compare_antisym|]). apply Th.
    + destruct (dt_millisecond a), (dt_millisecond b); try reflexivity. apply N.compare_antisym.
    + destruct (dt_tz a), (dt_tz b); try reflexivity. apply Th; apply Z.compare_antisym.
Qed.
Print Assumptions C100_order_exact.

(** ** Instants *)

Lemma days_before_year_mono y y' : (y < y')%Z -> (days_before_year y + 365 + (if leap_year y then 1 else 0) <= days_before_year y')%Z.
Proof.
  intros H. rewrite <- days_before_year_succ. replace y' with (y + 1 + (y' - y - 1))%Z by lia.
  generalize (y + 1)%Z. assert (0 <= y' - y - 1)%Z as G by lia. revert G. generalize (y' - y - 1)%Z. clear.
  intros k Hk. revert k Hk. apply (natlike_ind (fun k => forall z, (days_before_year z <= days_before_year (z + k))%Z)).
  - intros z. rewrite Z.add_0_r. lia.
  - intros k Hk IH z. specialize (IH z). replace (z + Z.succ k)%Z with (z + k + 1)%Z by lia. rewrite days_before_year_succ.
    destruct (leap_year (z + k)); lia.
Qed.

Lemma months_mono y m m' : 1 <= m -> m < m' -> m' <= 12 ->
  (days_before_month y m + Z.of_N (days_in_month y m) <= days_before_month y m')%Z.
Proof.
  intros H1 H2 H3. unfold days_before_month, days_in_month.
  assert (M : m = 1 \/ m = 2 \/ m = 3 \/ m = 4 \/ m = 5 \/ m = 6 \/ m = 7 \/ m = 8 \/ m = 9 \/ m = 10 \/ m = 11) by lia.
  assert (M' : m' = 2 \/ m' = 3 \/ m' = 4 \/ m' = 5 \/ m' = 6 \/ m' = 7 \/ m' = 8 \/ m' = 9 \/ m' = 10 \/ m' = 11 \/ m' = 12) by lia.
  destruct M as [->|[->|[->|[->|[->|[->|[->|[->|[->|[->| ->]]]]]]]]]];
    destruct M' as [->|[->|[->|[->|[->|[->|[->|[->|[->|[->| ->]]]]]]]]]]; try (exfalso; lia); destruct (leap_year y); vm_compute; discriminate.
Qed.

Lemma model_days_mono y m d y' m' d' : valid_date y m d -> valid_date y' m' d' ->
  (y < y')%Z \/ (y = y' /\ (m < m' \/ (m = m' /\ d < d'))) -> (model_days y m d < model_days y' m' d')%Z.
Proof.
  intros (M & D1 & D2) (M' & D1' & D2') H. rewrite <- month_length_model in D2, D2' by lia. unfold model_days. destruct H as [H|[-> [H|[-> H]]]].
  - apply days_before_year_mono in H.
    assert (A : (days_before_month y m + Z.of_N (days_in_month y m) <= 365 + if leap_year y then 1 else 0)%Z).
    { destruct (N.eq_dec m 12) as [->|Ne].
      - unfold days_before_month, days_in_month. destruct (leap_year y); vm_compute; discriminate.
      - pose proof (months_mono y m 12 ltac:(lia) ltac:(lia) ltac:(lia)). assert (days_before_month y 12 <= 334 + if leap_year y then 1 else 0)%Z
          by (unfold days_before_month; destruct (leap_year y); vm_compute; discriminate).
        lia. }
    assert (B : (0 <= days_before_month y' m')%Z).
    { destruct (N.eq_dec m' 1) as [->|Ne]; [unfold days_before_month; destruct (leap_year y'); vm_compute; discriminate|].
      pose proof (months_mono y' 1 m' ltac:(lia) ltac:(lia) ltac:(lia)). assert (0 <= days_before_month y' 1)%Z
        by (unfold days_before_month; destruct (leap_year y'); vm_compute; discriminate).
      lia. }
    lia.
  - pose proof (months_mono y' m m' ltac:(lia) H ltac:(lia)). lia.
  - lia.
Qed.

(** A time that exists. *)
Definition real_time (y : Z) (t : datetime) : Prop :=
  valid_date y (dt_month t) (dt_day t) /\ dt_hour t <= 23 /\ dt_minute t <= 59 /\ dt_second t <= 59
  /\ match dt_millisecond t with None => True | Some v => v <= 999 end.

(** The years given, in which the times lie, are in the order of the years of the values. *)
Lemma order_instants D a b ya yb :
  day_count D -> real_time ya a -> real_time yb b -> dt_tz a = dt_tz b ->
  ((ya < yb)%Z <-> dt_year a < dt_year b) -> (ya = yb <-> dt_year a = dt_year b) ->
  (datetime_cmp a b = Lt <->
   (value_instant D ya a < value_instant D yb b)%Z
   \/ (value_instant D ya a = value_instant D yb b /\ dt_millisecond a = None /\ dt_millisecond b = Some 0)).
Proof.
  intros HD (Va & Ha & Ma & Sa & La) (Vb & Hb & Mb & Sb & Lb) Tz Y1 Y2.
  unfold value_instant, instant. rewrite <- Tz, !(day_count_unique D HD) by assumption.
  generalize (value_minutes (dt_tz a)). intros off.
  assert (Tc : tz_cmp (dt_tz a) (dt_tz b) = Eq).
  { rewrite <- Tz. destruct (dt_tz a); cbn; try reflexivity. rewrite !Z.compare_refl. reflexivity. }
  assert (Tn : forall c, then_cmp c Eq = c) by (intros []; reflexivity).
  unfold datetime_cmp. rewrite Tc, Tn, !then_lt, !N.compare_lt_iff, !N.compare_eq_iff.
  assert (Dc : (model_days ya (dt_month a) (dt_day a) < model_days yb (dt_month b) (dt_day b))%Z <->
    dt_year a < dt_year b \/ (dt_year a = dt_year b /\ (dt_month a < dt_month b \/ (dt_month a = dt_month b /\ dt_day a < dt_day b)))).
  { rewrite <- Y1, <- Y2. split; [|apply model_days_mono; assumption]. intros H.
    destruct (Z.lt_trichotomy ya yb) as [C|[C|C]]; [left; exact C| |exfalso; pose proof (model_days_mono _ _ _ _ _ _ Vb Va (or_introl C)); lia].
    right. split; [exact C|]. subst yb.
    destruct (N.lt_trichotomy (dt_month a) (dt_month b)) as [E|[E|E]]; [left; exact E| |
      exfalso; pose proof (model_days_mono _ _ _ _ _ _ Vb Va (or_intror (conj eq_refl (or_introl E)))); lia].
    right. split; [exact E|].
    destruct (N.lt_trichotomy (dt_day a) (dt_day b)) as [F|[F|F]]; [exact F|rewrite E, F in H; lia|].
    exfalso. pose proof (model_days_mono _ _ _ _ _ _ Vb Va (or_intror (conj eq_refl (or_intror (conj (eq_sym E) F))))). lia. }
  assert (De : model_days ya (dt_month a) (dt_day a) = model_days yb (dt_month b) (dt_day b) <->
    dt_year a = dt_year b /\ dt_month a = dt_month b /\ dt_day a = dt_day b).
  { rewrite <- Y2. split; [|intros (-> & -> & ->); reflexivity]. intros H.
    assert (~ (dt_year a < dt_year b \/ (dt_year a = dt_year b /\ (dt_month a < dt_month b \/ (dt_month a = dt_month b /\ dt_day a < dt_day b))))) as N1
      by (rewrite <- Dc; lia).
    destruct (Z.lt_trichotomy ya yb) as [C|[C|C]]; [exfalso; apply N1; left; apply Y1; exact C| |
      exfalso; pose proof (model_days_mono _ _ _ _ _ _ Vb Va (or_introl C)); lia].
    split; [exact C|]. apply Y2 in C as C'. subst yb.
    destruct (N.lt_trichotomy (dt_month a) (dt_month b)) as [E|[E|E]]; [exfalso; apply N1; auto| |
      exfalso; pose proof (model_days_mono _ _ _ _ _ _ Vb Va (or_intror (conj eq_refl (or_introl E)))); lia].
    split; [exact E|].
    destruct (N.lt_trichotomy (dt_day a) (dt_day b)) as [F|[F|F]]; [exfalso; apply N1; auto|exact F|].
    exfalso. pose proof (model_days_mono _ _ _ _ _ _ Vb Va (or_intror (conj eq_refl (or_intror (conj (eq_sym E) F))))). lia. }
  revert Dc De. generalize (model_days ya (dt_month a) (dt_day a)) (model_days yb (dt_month b) (dt_day b)). intros da db Dc De.
  clear Va Vb Y1 Y2 Tz Tc HD.
  set (P := dt_year a < dt_year b) in *. set (Q := dt_year a = dt_year b) in *. set (R := dt_month a < dt_month b) in *.
  set (S := dt_month a = dt_month b) in *. set (U := dt_day a < dt_day b) in *. set (V := dt_day a = dt_day b) in *.
  clearbody P Q R S U V.
  assert (O : option_cmp (dt_millisecond a) (dt_millisecond b) = Lt <->
     match dt_millisecond a with None => 0 | Some v => v end < match dt_millisecond b with None => 0 | Some v => v end
     \/ (match dt_millisecond a with None => 0 | Some v => v end = match dt_millisecond b with None => 0 | Some v => v end
         /\ dt_millisecond a = None /\ dt_millisecond b = Some 0)).
  { destruct (dt_millisecond a) as [v|], (dt_millisecond b) as [w|]; cbn [option_cmp]; rewrite ?N.compare_lt_iff.
    - split; [auto|]. intros [H|(_ & H & _)]; [exact H|discriminate].
    - split; [discriminate|]. intros [H|(_ & H & _)]; [lia|discriminate].
    - split; [intros _|reflexivity]. destruct (N.eq_dec w 0) as [->|Ne]; [right; auto|left; lia].
    - split; [discriminate|]. intros [H|(_ & _ & H)]; [lia|discriminate]. }
  rewrite O. clear O. set (N1 := dt_millisecond a = None /\ dt_millisecond b = Some 0).
  assert (La' : match dt_millisecond a with None => 0 | Some v => v end <= 999) by (destruct (dt_millisecond a); lia).
  assert (Lb' : match dt_millisecond b with None => 0 | Some v => v end <= 999) by (destruct (dt_millisecond b); lia).
  clear La Lb. revert La' Lb'. generalize (match dt_millisecond a with None => 0 | Some v => v end) (match dt_millisecond b with None => 0 | Some v => v end).
  intros va vb La Lb. clearbody N1.
  assert (X : (da < db)%Z \/ da = db \/ (db < da)%Z) by lia.
  destruct X as [X|[X|X]].
  - split; [intros _; left; lia|]. intros _. apply Dc in X. tauto.
  - pose proof (proj1 De X) as (q & s & v). assert (~ (P \/ Q /\ (R \/ S /\ U))) as NL by (rewrite <- Dc; lia). subst db.
    split.
    + intros H. assert (dt_hour a < dt_hour b \/ (dt_hour a = dt_hour b /\ (dt_minute a < dt_minute b \/ (dt_minute a = dt_minute b /\
        (dt_second a < dt_second b \/ (dt_second a = dt_second b /\ (va < vb \/ va = vb /\ N1))))))) as G by (clear - H NL; tauto).
      destruct G as [G|[E1 [G|[E2 [G|[E3 [G|[E4 G]]]]]]]]; [left; lia..|]. right. rewrite E1, E2, E3, E4. tauto.
    + intros H. assert (G : dt_hour a < dt_hour b \/ (dt_hour a = dt_hour b /\ (dt_minute a < dt_minute b \/ (dt_minute a = dt_minute b /\
        (dt_second a < dt_second b \/ (dt_second a = dt_second b /\ (va < vb \/ va = vb /\ N1))))))); [|clear - G q s v; tauto].
      destruct H as [H|[H HN]]; [lia|]. assert (dt_hour a = dt_hour b) as E1 by lia. assert (dt_minute a = dt_minute b) as E2 by lia.
      assert (dt_second a = dt_second b) as E3 by lia. assert (va = vb) as E4 by lia. tauto.
  - split; [|intros [H|[H _]]; lia]. intros H. exfalso.
    assert ((P \/ Q /\ (R \/ S /\ U)) \/ (Q /\ S /\ V)) as G by (clear - H; tauto). destruct G as [G|G]; [apply Dc in G|apply De in G]; lia.
Qed.

(** Of two GeneralizedTimes with the same zone the earlier is the lesser; of two of the same instant, one with no milliseconds and
    one with 0, the former. *)
Theorem C100_generalized (D : Z -> N -> N -> Z) (a b : datetime) :
  day_count D -> real_time (Z.of_N (dt_year a)) a -> real_time (Z.of_N (dt_year b)) b -> dt_tz a = dt_tz b ->
  (datetime_cmp a b = Lt <->
   (value_instant D (Z.of_N (dt_year a)) a < value_instant D (Z.of_N (dt_year b)) b)%Z
   \/ (value_instant D (Z.of_N (dt_year a)) a = value_instant D (Z.of_N (dt_year b)) b
       /\ dt_millisecond a = None /\ dt_millisecond b = Some 0)).
Proof. intros HD Ra Rb T. apply order_instants; try assumption; lia. Qed.
Print Assumptions C100_generalized.

(** Of two UTCTimes with the same zone, years of the same century: the earlier is the lesser. *)
Theorem C100_utc (D : Z -> N -> N -> Z) (a b : datetime) :
  day_count D -> real_time (century (dt_year a)) a -> real_time (century (dt_year b)) b -> dt_tz a = dt_tz b ->
  (dt_year a < 50 <-> dt_year b < 50) -> dt_millisecond a = None -> dt_millisecond b = None ->
  (datetime_cmp a b = Lt <-> (value_instant D (century (dt_year a)) a < value_instant D (century (dt_year b)) b)%Z).
Proof.
  intros HD Ra Rb T C Na Nb. rewrite (order_instants D a b _ _ HD Ra Rb T).
  - rewrite Nb. split; [|auto]. intros [H|(_ & _ & H)]; [exact H|discriminate].
  - unfold century. destruct (N.ltb_spec (dt_year a) 50), (N.ltb_spec (dt_year b) 50); lia.
  - unfold century. destruct (N.ltb_spec (dt_year a) 50), (N.ltb_spec (dt_year b) 50); lia.
Qed.
Print Assumptions C100_utc.

(** Offsets count for nothing unless all else is equal: 13:00+0200 comes after 12:00Z though it is an hour earlier.  Nor does the
    century of a UTCTime: 1999-12-31 comes after 2000-01-01. *)
Theorem C100_refuted :
  exists a b, gen_from_bytes (dg [2; 0; 2; 4; 0; 1; 0; 1; 1; 3; 0; 0; 0; 0] ++ [43] ++ dg [0; 2; 0; 0]) = Ok a /\ gen_from_bytes (dg [2; 0; 2; 4; 0; 1; 0; 1; 1; 2; 0; 0; 0; 0] ++ [90]) = Ok b
  /\ datetime_cmp a b = Gt
  /\ (forall D, value_instant D 2024 b - value_instant D 2024 a = 3600000)%Z
  /\ exists c d, utc_from_bytes (dg [9; 9; 1; 2; 3; 1; 2; 3; 5; 9; 5; 9] ++ [90]) = Ok c /\ utc_from_bytes (dg [0; 0; 0; 1; 0; 1; 0; 0; 0; 0; 0; 0] ++ [90]) = Ok d
  /\ datetime_cmp c d = Gt
  /\ (forall D, day_count D -> value_instant D (century (dt_year d)) d - value_instant D (century (dt_year c)) c = 1000)%Z.
Proof.
  eexists. eexists. split; [vm_compute; reflexivity|]. split; [vm_compute; reflexivity|]. split; [reflexivity|].
  split; [intros D; unfold value_instant, instant; cbn; lia|]. eexists. eexists. split; [vm_compute; reflexivity|].
  split; [vm_compute; reflexivity|]. split; [reflexivity|]. intros D HD. unfold value_instant, instant. cbn [dt_month dt_day dt_year].
  rewrite !(day_count_unique D HD) by (split; vm_compute; split; discriminate). reflexivity.
Qed.
Print Assumptions C100_refuted.

Example C100_case :
  exists a b c, gen_from_bytes (dg [2; 0; 2; 4; 0; 2; 2; 9; 2; 3; 5; 9; 5; 9] ++ [46] ++ dg [9; 9; 9] ++ [90]) = Ok a /\ gen_from_bytes (dg [2; 0; 2; 4; 0; 3; 0; 1; 0; 0; 0; 0; 0; 0] ++ [90]) = Ok b
  /\ gen_from_bytes (dg [2; 0; 2; 4; 0; 3; 0; 1; 0; 0; 0; 0; 0; 0] ++ [46] ++ dg [0] ++ [90]) = Ok c
  /\ real_time 2024 a /\ real_time 2024 b /\ real_time 2024 c
  /\ datetime_cmp a b = Lt /\ datetime_cmp b c = Lt /\ value_instant model_days 2024 b = value_instant model_days 2024 c
  /\ (value_instant model_days 2024 b - value_instant model_days 2024 a = 1)%Z.
Proof.
  do 3 eexists. do 3 (split; [vm_compute; reflexivity|]). do 3 (split; [repeat split; vm_compute; try discriminate|]).
  split; [reflexivity|]. split; [reflexivity|]. split; vm_compute; reflexivity.
Qed.

(** ** The order of slices *)

(** Octet by octet, a slice before the longer ones that begin with it; of texts the same, by their UTF-8 form. *)
Theorem C42_slice_order (a b : bytes) :
  (slice_cmp a b = Lt <-> (exists y r, b = a ++ y :: r) \/ (exists p x y r s, a = p ++ x :: r /\ b = p ++ y :: s /\ x < y))
  /\ (slice_cmp a b = Eq <-> a = b).
Proof.
  split.
  - revert b. induction a as [|x a IH]; intros [|y b]; cbn [slice_cmp].
    + split; [discriminate|]. intros [(y & r & E)|(p & x & y & r & s & E & _)]; [discriminate|destruct p; discriminate].
    + split; [intros _; left; exists y, b; reflexivity|reflexivity].
    + split; [discriminate|]. intros [(z & r & E)|(p & u & v & r & s & _ & E & _)]; [discriminate|destruct p; discriminate].
    + rewrite then_lt, N.compare_lt_iff, N.compare_eq_iff, IH. split.
      * intros [H|[-> [(z & r & ->)|(p & u & v & r & s & -> & -> & H)]]].
        -- right. exists [], x, y, a, b. auto.
        -- left. exists z, r. reflexivity.
        -- right. exists (y :: p), u, v, r, s. auto.
      * intros [(z & r & E)|(p & u & v & r & s & Ea & Eb & H)].
        -- injection E as -> ->. right. split; [reflexivity|]. left. exists z, r. reflexivity.
        -- destruct p as [|z p]; cbn in Ea, Eb; injection Ea as -> ->; injection Eb as -> ->; [left; exact H|].
           right. split; [reflexivity|]. right. exists p, u, v, r, s. auto.
  - revert b. induction a as [|x a IH]; intros [|y b]; cbn [slice_cmp]; try (split; [reflexivity|reflexivity]); try (split; discriminate).
    rewrite then_eq, N.compare_eq_iff, IH. split; [intros [-> ->]; reflexivity|intros [= -> ->]; auto].
Qed.
Print Assumptions C42_slice_order.
Example C42_slice_order_case : slice_cmp [1; 2] [1; 2; 0] = Lt /\ slice_cmp [1; 3] [1; 2; 0] = Gt /\ slice_cmp [1; 3] [1; 3] = Eq.
Proof. repeat split. Qed.
