(** Properties of UTCTime and GeneralizedTime: C35, C36, C37, C52, C53, C54. *)
From Verif Require Import Base MHeader MEncode SHeader PArith PHeader PEncode MBer SBer PBer
  MInt SInt PCodec PInt PropInt MOid SOid POid MText MTime STime PTime.

(** ** The four parsers *)

Lemma prim_accept {T} (p : codec T) tag (P Q : bytes -> T -> Prop) i rem v :
  plain p -> (forall x, accept_tag p x = is_tag tag x) ->
  (forall h d v, bytes_ok d -> h_length h = Definite (blen d) ->
     ((exists r, ber_content p h d = Ok (r, v)) <-> h_constructed h = false /\ P d v)) ->
  (forall h d v, bytes_ok d -> h_length h = Definite (blen d) ->
     ((exists r, der_content p h d = Ok (r, v)) <-> h_constructed h = false /\ Q d v)) ->
  (forall h d v, bytes_ok d -> h_length h = Definite (blen d) ->
     ((check_constraints p (mk_any h d) = Ok tt /\ exists r, ber_content p h d = Ok (r, v)) <-> h_constructed h = false /\ Q d v)) ->
  (forall h d r v, ber_content p h d = Ok (r, v) -> h_constructed h = false) -> bytes_ok i ->
  let ber := exists c content, starts_with_object c false tag content i rem /\ P content v in
  let der := exists c content, starts_with_object c false tag content i rem /\ Q content v in
  (parse_ber p i = Ok (rem, v) <-> ber) /\ (from_ber p i = Ok (rem, v) <-> ber)
  /\ (parse_der p i = Ok (rem, v) <-> der) /\ (from_der p i = Ok (rem, v) <-> der).
Proof.
  intros Hp Ha Hb Hd Hc Hk Hi ber der. rewrite (from_ber_parse_ber p) by assumption.
  assert (B : parse_ber p i = Ok (rem, v) <-> ber).
  { apply (parse_ber_prim_spec p tag P); [exact Ha|exact Hb|exact Hk|exact Hi]. }
  assert (G : (exists c k content, starts_with_object c k tag content i rem /\ (k = false /\ Q content v)) <-> der).
  { unfold der. split; [intros (c & k & d & H & -> & H'); eauto|intros (c & d & H & H'); eauto 8]. }
  split; [exact B|]. split; [exact B|]. rewrite <- G. split.
  - apply (parse_der_spec p tag (fun k d v => k = false /\ Q d v)); [exact Ha|exact Hd|exact Hi].
  - apply (from_der_spec p tag (fun k d v => k = false /\ Q d v)); [exact Hp|exact Ha|exact Hc|exact Hi].
Qed.

Lemma visible_text d : Forall (fun c => 32 <= c <= 126) d -> forallb is_visible d = true.
Proof. intros F. apply forallb_forall. intros x Hx. rewrite Forall_forall in F. specialize (F x Hx). unfold is_visible. lia. Qed.

(** What is read from a content. *)
Definition utc_reads (d : bytes) (t : datetime) : Prop :=
  exists w, utc_text_of w d /\ in_range w /\ utc_supported w /\ t = fields w.
Definition gen_reads (d : bytes) (t : datetime) : Prop :=
  exists w, gen_text_of w d /\ in_range w /\ gen_supported w /\ t = fields w.
(** In DER a GeneralizedTime ends with "Z" and has no comma. *)
Definition gen_der_reads (d : bytes) (t : datetime) : Prop :=
  exists w, gen_text_of w d /\ in_range w /\ gen_supported w /\ t = fields w /\ w_zone w = Utc /\ ~ In 44 d.

Lemma utc_read_visible d t : utc_reads d t -> forallb is_visible d = true.
Proof. intros (w & [T _] & _). apply visible_text. eapply time_text_visible. exact T. Qed.
Lemma gen_read_visible d t : gen_reads d t -> forallb is_visible d = true.
Proof. intros (w & T & _). apply visible_text. eapply time_text_visible. exact T. Qed.

Lemma utc_ber_iff h d t :
  (exists r, utc_ber_content h d = Ok (r, t)) <-> h_constructed h = false /\ utc_reads d t.
Proof.
  unfold utc_ber_content. destruct (h_constructed h); [split; [intros [r E]; discriminate|intros [E _]; discriminate]|].
  unfold utc_reads. rewrite <- utc_from_bytes_ok. destruct (forallb is_visible d) eqn:V; cbn [negb].
  - split.
    + intros [r E]. apply bind_ok in E as (t' & E & H). injection H as _ <-. auto.
    + intros [_ E]. rewrite E. eexists. reflexivity.
  - split; [intros [r E]; discriminate|]. intros [_ E]. apply utc_from_bytes_ok in E. apply utc_read_visible in E. congruence.
Qed.

Lemma utc_der_ber h d : h_constructed h = false -> utc_der_content h d = utc_ber_content h d.
Proof. intros K. unfold utc_der_content, utc_ber_content, assert_primitive. rewrite K. reflexivity. Qed.

Lemma utc_der_iff h d t :
  (exists r, utc_der_content h d = Ok (r, t)) <-> h_constructed h = false /\ utc_reads d t.
Proof.
  destruct (h_constructed h) eqn:K.
  - unfold utc_der_content, assert_primitive. rewrite K. split; [intros [r E]; discriminate|intros [E _]; discriminate].
  - rewrite utc_der_ber by exact K. rewrite utc_ber_iff, K. reflexivity.
Qed.

Lemma gen_ber_iff h d t :
  (exists r, gen_ber_content h d = Ok (r, t)) <-> h_constructed h = false /\ gen_reads d t.
Proof.
  unfold gen_ber_content. destruct (h_constructed h); [split; [intros [r E]; discriminate|intros [E _]; discriminate]|].
  unfold gen_reads. rewrite <- gen_from_bytes_ok. destruct (forallb is_visible d) eqn:V; cbn [negb].
  - split.
    + intros [r E]. apply bind_ok in E as (t' & E & H). injection H as _ <-. auto.
    + intros [_ E]. rewrite E. eexists. reflexivity.
  - split; [intros [r E]; discriminate|]. intros [_ E]. apply gen_from_bytes_ok in E. apply gen_read_visible in E. congruence.
Qed.

Lemma gen_der_text_ok d : gen_der_text d = Ok tt <-> last d 0 = 90 /\ ~ In 44 d.
Proof.
  unfold gen_der_text. destruct (N.eqb_spec (last d 0) 90) as [E|E]; cbn [negb]; [|split; [discriminate|tauto]].
  destruct (existsb (fun b => b =? 44) d) eqn:X.
  - split; [discriminate|]. intros [_ H]. exfalso. apply H. apply existsb_exists in X as (x & Hx & Ex). apply N.eqb_eq in Ex. subst x. exact Hx.
  - split; [|reflexivity]. intros _. split; [exact E|]. intros H. assert (existsb (fun b => b =? 44) d = true); [|congruence].
    apply existsb_exists. exists 44. auto.
Qed.

Lemma fixed_no_Z w n s : fixed w n s -> Forall (fun c => c <> 90) s.
Proof. intros (ds & -> & F & _). apply Forall_map. eapply Forall_impl; [|exact F]. cbn. lia. Qed.

Lemma no_Z n w d : time_text n w d -> w_zone w <> Utc -> Forall (fun c => c <> 90) d.
Proof.
  intros (y & mo & da & h & mi & sec & fr & z & Fy & Fmo & Fd & Fh & Fmi & Fs & Ff & Fz & ->) Hz.
  rewrite !Forall_app. repeat split; try (eapply fixed_no_Z; eassumption).
  - destruct (w_second w); cbn in Fs; [eapply fixed_no_Z; eassumption|subst; constructor].
  - destruct (w_fraction w); cbn in Ff; [|subst; constructor]. destruct Ff as (F & c & Hc & ->).
    constructor; [lia|]. apply Forall_map. eapply Forall_impl; [|exact F]. cbn. lia.
  - assert (Hs : forall c h m, c <> 90 -> signed_text c h m z -> Forall (fun c => c <> 90) z).
    { intros c h' m' Hc (a & b & Fa & Fb & ->). constructor; [exact Hc|]. apply Forall_app. split; eapply fixed_no_Z; eassumption. }
    destruct (w_zone w); cbn in Fz; [subst; constructor|congruence|eapply Hs; [|exact Fz]; lia..].
Qed.

Lemma last_Forall (P : N -> Prop) d x : P x -> Forall P d -> P (last d x).
Proof. intros Hx F. induction F as [|a d Ha F IH]; [exact Hx|]. cbn. destruct d; [exact Ha|exact IH]. Qed.

Lemma ends_with_Z n w d : time_text n w d -> (last d 0 = 90 <-> w_zone w = Utc).
Proof.
  intros T. split.
  - intros E. destruct (w_zone w) eqn:Z; try reflexivity; exfalso;
      (apply (last_Forall (fun c => c <> 90) d 0); [lia|eapply no_Z; [exact T|congruence]|exact E]).
  - intros Z. destruct T as (y & mo & da & h & mi & sec & fr & z & _ & _ & _ & _ & _ & _ & _ & Fz & ->).
    rewrite Z in Fz. cbn in Fz. subst z. rewrite !app_assoc. apply last_last.
Qed.

Lemma gen_der_iff' d t : gen_der_text d = Ok tt /\ gen_reads d t <-> gen_der_reads d t.
Proof.
  rewrite gen_der_text_ok. split.
  - intros ([H1 H2] & w & T & R & S & E). exists w. do 4 (split; [assumption|]).
    split; [apply (ends_with_Z _ _ _ T); exact H1|exact H2].
  - intros (w & T & R & S & E & H1 & H2). split; [split; [apply (ends_with_Z _ _ _ T); exact H1|exact H2]|]. exists w. auto.
Qed.

Lemma gen_der_iff h d t :
  (exists r, gen_der_content h d = Ok (r, t)) <-> h_constructed h = false /\ gen_der_reads d t.
Proof.
  rewrite <- gen_der_iff'. unfold gen_der_content, assert_primitive. destruct (h_constructed h); cbn [bind];
    [split; [intros [r E]; discriminate|intros [E _]; discriminate]|].
  unfold gen_reads. rewrite <- gen_from_bytes_ok. destruct (forallb is_visible d) eqn:V; cbn [negb].
  - split.
    + intros [r E]. apply bind_ok in E as ([] & E1 & E). apply bind_ok in E as (t' & E & H). injection H as _ <-. auto.
    + intros [_ [E1 E]]. rewrite E1. cbn [bind]. rewrite E. eexists. reflexivity.
  - split; [intros [r E]; discriminate|]. intros [_ [_ E]]. apply gen_from_bytes_ok in E. apply gen_read_visible in E. congruence.
Qed.

(** ** C37: what is read *)

Theorem C37_utc_accept (i rem : bytes) (t : datetime) :
  bytes_ok i ->
  let accepted := exists c content w,
    starts_with_object c false 23 content i rem
    /\ utc_text_of w content /\ in_range w /\ utc_supported w /\ t = fields w in
  (parse_ber utc_codec i = Ok (rem, t) <-> accepted) /\ (from_ber utc_codec i = Ok (rem, t) <-> accepted)
  /\ (parse_der utc_codec i = Ok (rem, t) <-> accepted) /\ (from_der utc_codec i = Ok (rem, t) <-> accepted).
Proof.
  intros Hi accepted.
  assert (G : (exists c content, starts_with_object c false 23 content i rem /\ utc_reads content t) <-> accepted).
  { unfold accepted, utc_reads. split; [intros (c & d & H & w & H'); eauto 8|intros (c & d & w & H & H'); eauto 8]. }
  rewrite <- G. apply (prim_accept utc_codec 23 utc_reads utc_reads); try reflexivity.
  - intros a; reflexivity.
  - intros h d v _ _. apply utc_ber_iff.
  - intros h d v _ _. apply utc_der_iff.
  - intros h d v _ _. cbn [check_constraints utc_codec]. rewrite <- utc_ber_iff. split; [intros [_ H]; exact H|auto].
  - intros h d r v E. apply (utc_ber_iff h d v). eauto.
  - exact Hi.
Qed.
Print Assumptions C37_utc_accept.

Theorem C37_gen_accept (i rem : bytes) (t : datetime) :
  bytes_ok i ->
  let ber := exists c content w,
    starts_with_object c false 24 content i rem
    /\ gen_text_of w content /\ in_range w /\ gen_supported w /\ t = fields w in
  let der := exists c content w,
    starts_with_object c false 24 content i rem
    /\ gen_text_of w content /\ in_range w /\ gen_supported w /\ t = fields w /\ w_zone w = Utc /\ ~ In 44 content in
  (parse_ber gen_codec i = Ok (rem, t) <-> ber) /\ (from_ber gen_codec i = Ok (rem, t) <-> ber)
  /\ (parse_der gen_codec i = Ok (rem, t) <-> der) /\ (from_der gen_codec i = Ok (rem, t) <-> der).
Proof.
  intros Hi ber der.
  assert (G : (exists c content, starts_with_object c false 24 content i rem /\ gen_reads content t) <-> ber).
  { unfold ber, gen_reads. split; [intros (c & d & H & w & H'); eauto 8|intros (c & d & w & H & H'); eauto 8]. }
  assert (G' : (exists c content, starts_with_object c false 24 content i rem /\ gen_der_reads content t) <-> der).
  { unfold der, gen_der_reads. split; [intros (c & d & H & w & H'); eauto 8|intros (c & d & w & H & H'); eauto 8]. }
  rewrite <- G, <- G'. apply (prim_accept gen_codec 24 gen_reads gen_der_reads); try reflexivity.
  - intros a; reflexivity.
  - intros h d v _ _. apply gen_ber_iff.
  - intros h d v _ _. apply gen_der_iff.
  - intros h d v _ _. cbn [check_constraints gen_codec any_data ber_content]. rewrite gen_ber_iff, <- gen_der_iff'. tauto.
  - intros h d r v E. apply (gen_ber_iff h d v). eauto.
  - exact Hi.
Qed.
Print Assumptions C37_gen_accept.

(** The instant read is the instant written, when the zone is not "-00mm" and there is a zone or the fraction has
    at most three digits. *)
Lemma fields_instant D y w :
  match w_fraction w with None => True | Some ds => (length ds <= 3)%nat end ->
  (forall m, w_zone w = West 0 m -> m = 0) ->
  value_instant D y (fields w) = written_instant D y w.
Proof.
  intros S Hw. unfold value_instant, written_instant, fields. cbn.
  assert (Ez : value_minutes (zone_value (w_zone w)) = zone_minutes (w_zone w)).
  { destruct (w_zone w) as [| |h m|h m]; cbn; try reflexivity.
    - destruct (Z.ltb_spec (Z.of_N h) 0); lia.
    - destruct (Z.ltb_spec (- Z.of_N h) 0); [lia|]. assert (h = 0) by lia. subst h. rewrite (Hw m eq_refl). reflexivity. }
  rewrite Ez. destruct (w_fraction w) as [ds|]; [|reflexivity]. rewrite read_fraction_thousandths by auto. reflexivity.
Qed.

Theorem C37_utc_instant_partial (i rem : bytes) (t : datetime) :
  bytes_ok i -> from_ber utc_codec i = Ok (rem, t) ->
  exists c content w, starts_with_object c false 23 content i rem /\ utc_text_of w content /\ in_range w
    /\ ((forall m, w_zone w = West 0 m -> m = 0) ->
        forall D y, value_instant D y t = written_instant D y w).
Proof.
  intros Hi E. apply (C37_utc_accept i rem t Hi) in E as (c & d & w & H & T & R & _ & ->).
  exists c, d, w. split; [exact H|]. split; [exact T|]. split; [exact R|]. intros Hw D y. apply fields_instant; [|exact Hw].
  destruct T as (_ & -> & _). exact I.
Qed.
Print Assumptions C37_utc_instant_partial.

Theorem C37_gen_instant_partial (i rem : bytes) (t : datetime) :
  bytes_ok i -> from_ber gen_codec i = Ok (rem, t) ->
  exists c content w, starts_with_object c false 24 content i rem /\ gen_text_of w content /\ in_range w
    /\ ((forall m, w_zone w = West 0 m -> m = 0) ->
        (w_zone w <> Local \/ match w_fraction w with None => True | Some ds => (length ds <= 3)%nat end) ->
        forall D y, value_instant D y t = written_instant D y w).
Proof.
  intros Hi E. apply (C37_gen_accept i rem t Hi) in E as (c & d & w & H & T & R & [_ S] & ->).
  exists c, d, w. split; [exact H|]. split; [exact T|]. split; [exact R|]. intros Hw Hl D y. apply fields_instant; [|exact Hw].
  destruct (w_fraction w); [|exact I]. destruct Hl as [Hl|Hl]; [|exact Hl]. destruct S as [_ S]. auto.
Qed.
Print Assumptions C37_gen_instant_partial.

(** Digits as text. *)
Definition dg (ds : list N) : list N := map (fun d => 48 + d) ds.

(** 2023-01-02 03:04:05.25 two hours and a half behind UTC. *)
Example C37_case :
  let text := dg [2; 0; 2; 3; 0; 1; 0; 2; 0; 3; 0; 4; 0; 5] ++ [46] ++ dg [2; 5] ++ [45] ++ dg [0; 2; 3; 0] in
  let w := mk_written 2023 1 2 3 4 (Some 5) (Some [2; 5]) (West 2 30) in
  let t := mk_datetime 2023 1 2 3 4 5 (Some 250) (TzOffset (-2) 30) in
  gen_text_of w text /\ in_range w /\ gen_supported w /\ fields w = t
  /\ from_ber gen_codec ([24; 22] ++ text ++ [7]) = Ok ([7], t)
  /\ from_der gen_codec ([24; 22] ++ text ++ [7]) = Err (EDerConstraintFailed DCMissingTimeZone)
  /\ value_instant model_days 2023 t = 1672637645250%Z
  /\ from_ber utc_codec ([23; 11] ++ dg [2; 3; 0; 1; 0; 2; 0; 3; 0; 4] ++ [90])
     = Ok ([], mk_datetime 23 1 2 3 4 0 None TzZ).
Proof.
  cbv zeta. split; [|split; [|split; [|split; [|split; [|split; [|split]]]]]]; try (vm_compute; reflexivity).
  - eexists (dg [2; 0; 2; 3]), (dg [0; 1]), (dg [0; 2]), (dg [0; 3]), (dg [0; 4]), (dg [0; 5]), (46 :: dg [2; 5]), (45 :: dg [0; 2; 3; 0]).
    assert (F : forall ds, Forall (fun d => d < 10) ds -> forall k n, length ds = k -> value_be 10 ds = n -> fixed k n (dg ds)).
    { intros ds F k n E1 E2. exists ds. auto. }
    cbn [w_year w_month w_day w_hour w_minute w_second w_fraction w_zone second_text frac_text zone_text].
    do 6 (split; [apply F; [repeat constructor|reflexivity|reflexivity]|]).
    split; [split; [repeat constructor|exists 46; auto]|]. split; [|reflexivity].
    exists (dg [0; 2]), (dg [3; 0]). split; [apply F; [repeat constructor|reflexivity|reflexivity]|].
    split; [apply F; [repeat constructor|reflexivity|reflexivity]|reflexivity].
  - unfold in_range, seconds. cbn. lia.
  - split; [discriminate|]. cbn. split; [discriminate|lia].
Qed.

(** The sign of an offset of less than an hour is lost: thirty minutes behind and thirty minutes ahead read alike,
    though the instants are an hour apart. *)
Theorem C37_negative_offset_refuted :
  exists ahead behind w w' t,
    utc_text_of w ahead /\ utc_text_of w' behind /\ utc_from_bytes ahead = Ok t /\ utc_from_bytes behind = Ok t
    /\ forall D y, (written_instant D y w' - written_instant D y w = 3600000)%Z.
Proof.
  exists (dg [2; 3; 0; 1; 0; 2; 0; 3; 0; 4; 0; 5] ++ [43] ++ dg [0; 0; 3; 0]),
    (dg [2; 3; 0; 1; 0; 2; 0; 3; 0; 4; 0; 5] ++ [45] ++ dg [0; 0; 3; 0]).
  exists (mk_written 23 1 2 3 4 (Some 5) None (East 0 30)), (mk_written 23 1 2 3 4 (Some 5) None (West 0 30)).
  exists (mk_datetime 23 1 2 3 4 5 None (TzOffset 0 30)).
  assert (F : forall ds, Forall (fun d => d < 10) ds -> forall k n, length ds = k -> value_be 10 ds = n -> fixed k n (dg ds)).
  { intros ds F k n E1 E2. exists ds. auto. }
  assert (P : forall z s, zone_text z s -> z <> Local ->
    utc_text_of (mk_written 23 1 2 3 4 (Some 5) None z) (dg [2; 3; 0; 1; 0; 2; 0; 3; 0; 4; 0; 5] ++ s)).
  { intros z s T Hz. split; [|split; [reflexivity|exact Hz]].
    eexists (dg [2; 3]), (dg [0; 1]), (dg [0; 2]), (dg [0; 3]), (dg [0; 4]), (dg [0; 5]), [], s.
    cbn [w_year w_month w_day w_hour w_minute w_second w_fraction w_zone second_text frac_text].
    do 6 (split; [apply F; [repeat constructor|reflexivity|reflexivity]|]). split; [reflexivity|]. split; [exact T|reflexivity]. }
  assert (S : forall c, signed_text c 0 30 ([c] ++ dg [0; 0; 3; 0])).
  { intros c. exists (dg [0; 0]), (dg [3; 0]). split; [apply F; [repeat constructor|reflexivity|reflexivity]|].
    split; [apply F; [repeat constructor|reflexivity|reflexivity]|reflexivity]. }
  split; [apply P; [apply S|discriminate]|]. split; [apply P; [apply S|discriminate]|].
  split; [reflexivity|]. split; [reflexivity|].
  intros D y. unfold written_instant, instant. cbn. lia.
Qed.
Print Assumptions C37_negative_offset_refuted.

(** Four digits of a fraction are read as milliseconds: ".1234" as more than a second. *)
Theorem C37_four_digits_refuted :
  exists content t,
    from_ber gen_codec content = Ok ([], t)
    /\ content = [24; 19] ++ dg [2; 0; 2; 3; 0; 1; 0; 2; 0; 3; 0; 4; 0; 5] ++ [46] ++ dg [1; 2; 3; 4]
    /\ dt_millisecond t = Some 1234 /\ thousandths [1; 2; 3; 4] = 123.
Proof. eexists _, _. split; [|split; [reflexivity|split]]; vm_compute; reflexivity. Qed.
Print Assumptions C37_four_digits_refuted.

(** Texts that are not dates are accepted: month 0, and the 31st of February. *)
Theorem C37_date_refuted :
  exists t t',
    from_der utc_codec ([23; 13] ++ dg [2; 3; 0; 0; 0; 0; 0; 3; 0; 4; 0; 5] ++ [90]) = Ok ([], t)
    /\ from_der utc_codec ([23; 13] ++ dg [2; 3; 0; 2; 3; 1; 0; 3; 0; 4; 0; 5] ++ [90]) = Ok ([], t')
    /\ (forall y, ~ valid_date y (dt_month t) (dt_day t)) /\ (forall y, ~ valid_date y (dt_month t') (dt_day t')).
Proof.
  eexists _, _. split; [vm_compute; reflexivity|]. split; [vm_compute; reflexivity|]. cbn. split; intros y [H1 H2]; [lia|].
  assert (B : forall b : bool, (if b then 29 else 28) <= 29) by (intros []; lia).
  assert (month_length y 2 <= 29) by apply B. lia.
Qed.
Print Assumptions C37_date_refuted.

(** ** Writing *)

Lemma utc_text_written t :
  dt_year t < 100 -> value_ranges t -> utc_canonical (written_as t None) (utc_text t) /\ blen (utc_text t) = 13.
Proof.
  intros Hy (H1 & H2 & H3 & H4 & H5).
  assert (Fy := pad2 _ Hy). assert (Fmo := pad2 (dt_month t) ltac:(lia)). assert (Fd := pad2 (dt_day t) ltac:(lia)).
  assert (Fh := pad2 (dt_hour t) ltac:(lia)). assert (Fmi := pad2 (dt_minute t) ltac:(lia)). assert (Fs := pad2 (dt_second t) ltac:(lia)).
  split.
  - split; [|split; [discriminate|reflexivity]]. split; [|split; [reflexivity|discriminate]].
    eexists _, _, _, _, _, _, [], [90]. do 5 (split; [eassumption|]). split; [exact Fs|]. split; [reflexivity|]. split; [reflexivity|].
    unfold utc_text. reflexivity.
  - unfold utc_text, blen. rewrite !app_length, (fixed_length _ _ _ Fy), (fixed_length _ _ _ Fmo), (fixed_length _ _ _ Fd),
      (fixed_length _ _ _ Fh), (fixed_length _ _ _ Fmi), (fixed_length _ _ _ Fs). reflexivity.
Qed.

Lemma gen_text_written t :
  dt_year t < 10000 -> value_ranges t ->
  exists frac, gen_text_of (written_as t frac) (gen_text t)
    /\ match dt_millisecond t, frac with
       | None, None => True
       | Some v, Some ds => Forall (fun d => d < 10) ds /\ v = value_be 10 ds /\ (ds = [0] \/ hd 0 ds <> 0)
       | _, _ => False
       end
    /\ blen (gen_text t) = 15 + match frac with None => 0 | Some ds => 1 + blen ds end
    /\ ~ In 44 (gen_text t)
    /\ tb_content_len (tober_gen t) = Definite (blen (gen_text t))
    /\ tb_write_content (tober_gen t) = Ok (gen_text t, blen (gen_text t)).
Proof.
  intros Hy (H1 & H2 & H3 & H4 & H5).
  assert (Fy := pad4 _ Hy). assert (Fmo := pad2 (dt_month t) ltac:(lia)). assert (Fd := pad2 (dt_day t) ltac:(lia)).
  assert (Fh := pad2 (dt_hour t) ltac:(lia)). assert (Fmi := pad2 (dt_minute t) ltac:(lia)). assert (Fs := pad2 (dt_second t) ltac:(lia)).
  assert (NC : forall k n s, fixed k n s -> ~ In 44 s).
  { intros k n s (ds & -> & F & _) H. apply in_map_iff in H as (x & E & Hx). lia. }
  assert (L : blen (gen_text t) = 15 + blen (fraction_text (dt_millisecond t))).
  { unfold gen_text, blen. rewrite !app_length, (fixed_length _ _ _ Fy), (fixed_length _ _ _ Fmo), (fixed_length _ _ _ Fd),
      (fixed_length _ _ _ Fh), (fixed_length _ _ _ Fmi), (fixed_length _ _ _ Fs). cbn [length]. lia. }
  assert (G : forall frac, frac_text frac (fraction_text (dt_millisecond t)) -> gen_text_of (written_as t frac) (gen_text t)).
  { intros frac Hf. eexists _, _, _, _, _, _, _, [90]. do 5 (split; [eassumption|]). split; [exact Fs|]. split; [exact Hf|].
    split; [reflexivity|]. unfold gen_text. reflexivity. }
  assert (NT : ~ In 44 (fraction_text (dt_millisecond t)) -> ~ In 44 (gen_text t)).
  { intros Hn H. unfold gen_text in H. rewrite !in_app_iff in H.
    destruct H as [H|[H|[H|[H|[H|[H|[H|H]]]]]]]; try (eapply NC; [|exact H]; eassumption); [exact (Hn H)|].
    destruct H as [H|[]]. discriminate. }
  cbn [tober_gen tb_content_len tb_write_content]. rewrite L. unfold fraction_text in *.
  destruct (dt_millisecond t) as [v|].
  - destruct (decimal_ok v) as (ds & E & F & V & H). exists (Some ds). rewrite E in *. rewrite blen_cons, blen_map in *.
    split; [apply G; split; [exact F|exists 46; auto]|]. split; [auto|]. split; [reflexivity|]. split; [|split; reflexivity].
    apply NT. intros [E1|E1]; [discriminate|]. apply in_map_iff in E1 as (x & E1 & Hx). lia.
  - exists None. split; [apply G; reflexivity|]. split; [exact I|]. split; [reflexivity|]. split; [|split; reflexivity]. apply NT. intros [].
Qed.

(** Objects are read in one way. *)
Lemma object_det c k t d i r c' k' t' d' r' :
  bytes_ok i -> starts_with_object c k t d i r -> starts_with_object c' k' t' d' i r' ->
  c = c' /\ k = k' /\ t = t' /\ d = d' /\ r = r'.
Proof.
  intros Hi (n & idb & lenb & HR & E & ->) (n' & idb' & lenb' & HR' & E' & E2).
  assert (Hx : bytes_ok (d ++ r)) by (apply bytes_ok_app in Hi as [_ Hi]; apply bytes_ok_app in Hi; apply Hi).
  assert (Hx' : bytes_ok (d' ++ r')) by (rewrite E2 in Hi; apply bytes_ok_app in Hi as [_ Hi]; apply bytes_ok_app in Hi; apply Hi).
  destruct (readable_det _ _ _ _ _ _ _ _ _ _ _ _ _ _ HR HR' Hx Hx' E2) as (-> & -> & Et & El & _ & _ & Ed).
  injection El as El. apply app_inj_pre in Ed as [-> ->]; [|unfold blen in El; lia]. repeat split. congruence.
Qed.

Lemma writes_starts w c k t cb :
  writes w c k t cb -> t < 2 ^ 32 -> blen cb < 2 ^ 64 -> bytes_ok cb ->
  exists enc, to_vec w = Ok enc /\ bytes_ok enc /\ forall x, starts_with_object c k t cb (enc ++ x) x.
Proof.
  intros W Ht Hn Hcb. destruct (encode_writes w c k t cb W Ht Hn) as (idb & lenb & E & _ & _ & _ & HR).
  exists (idb ++ lenb ++ cb). unfold to_vec. rewrite E. split; [reflexivity|]. split.
  - rewrite app_assoc. apply bytes_ok_app. split; [eapply readable_ok; exact HR|exact Hcb].
  - intros x. exists t, idb, lenb. split; [exact HR|]. split; [apply N.mod_small; exact Ht|]. rewrite <- !app_assoc. reflexivity.
Qed.

Lemma text_bytes n w s : time_text n w s -> bytes_ok s.
Proof. intros T. eapply Forall_impl; [|eapply time_text_visible; exact T]. cbn. intros. lia. Qed.

Lemma utc_written_object t :
  dt_year t < 100 -> value_ranges t ->
  exists enc, to_vec (tober_utc t) = Ok enc /\ bytes_ok enc /\ blen (utc_text t) = 13
    /\ utc_canonical (written_as t None) (utc_text t)
    /\ forall x, starts_with_object Universal false 23 (utc_text t) (enc ++ x) x.
Proof.
  intros Hy Hr. destruct (utc_text_written t Hy Hr) as [T L].
  destruct (writes_starts (tober_utc t) Universal false 23 (utc_text t)) as (enc & E & Hok & S).
  - split; [reflexivity|]. rewrite L. split; reflexivity.
  - reflexivity.
  - rewrite L. reflexivity.
  - eapply text_bytes. apply T.
  - exists enc. auto.
Qed.

Lemma digits_unique v ds es :
  Forall (fun d => d < 10) ds -> v = value_be 10 ds -> (ds = [0] \/ hd 0 ds <> 0) ->
  Forall (fun d => d < 10) es -> v = value_be 10 es -> (es = [0] \/ hd 0 es <> 0) -> ds = es.
Proof.
  intros F V H G V' H'.
  assert (Z : forall xs, hd 0 xs <> 0 -> value_be 10 xs <> 0).
  { intros [|x xs] Hx; [exfalso; apply Hx; reflexivity|]. pose proof (normal_lower 10 (x :: xs) ltac:(lia) ltac:(discriminate) Hx) as B.
    assert (10 ^ (blen (x :: xs) - 1) <> 0) by (apply N.pow_nonzero; lia). lia. }
  destruct H as [->|H], H' as [->|H'].
  - reflexivity.
  - exfalso. apply (Z es H'). rewrite <- V', V. reflexivity.
  - exfalso. apply (Z ds H). rewrite <- V, V'. reflexivity.
  - destruct es as [|e es]; [exfalso; apply H'; reflexivity|]. destruct ds as [|d ds]; [exfalso; apply H; reflexivity|].
    apply (normal_unique 10); try assumption; [lia|congruence].
Qed.

Lemma shown_unique x f g : shown_fraction x f -> shown_fraction x g -> f = g.
Proof.
  destruct x as [v|], f as [ds|], g as [es|]; cbn; try tauto. intros (F & V & H) (G & V' & H'). f_equal. apply (digits_unique v); assumption.
Qed.

(** A time is written in one way, but for commas. *)
Lemma time_text_unique n w s t : time_text n w s -> time_text n w t -> ~ In 44 s -> ~ In 44 t -> s = t.
Proof.
  intros (y1 & mo1 & d1 & h1 & mi1 & s1 & f1 & z1 & Fy1 & Fmo1 & Fd1 & Fh1 & Fmi1 & Fs1 & Ff1 & Fz1 & ->)
    (y2 & mo2 & d2 & h2 & mi2 & s2 & f2 & z2 & Fy2 & Fmo2 & Fd2 & Fh2 & Fmi2 & Fs2 & Ff2 & Fz2 & ->) N1 N2.
  rewrite (fixed_inj _ _ _ _ Fy1 Fy2), (fixed_inj _ _ _ _ Fmo1 Fmo2), (fixed_inj _ _ _ _ Fd1 Fd2), (fixed_inj _ _ _ _ Fh1 Fh2),
    (fixed_inj _ _ _ _ Fmi1 Fmi2).
  assert (Es : s1 = s2) by (destruct (w_second w); cbn in *; [eapply fixed_inj; eassumption|congruence]).
  assert (Ef : f1 = f2).
  { destruct (w_fraction w); cbn in *; [|congruence]. destruct Ff1 as (_ & c1 & H1 & ->), Ff2 as (_ & c2 & H2 & ->).
    rewrite !in_app_iff in N1, N2. cbn [In] in N1, N2.
    assert (c1 = 46) by (destruct H1 as [H1|H1]; [exact H1|exfalso; apply N1; tauto]).
    assert (c2 = 46) by (destruct H2 as [H2|H2]; [exact H2|exfalso; apply N2; tauto]). congruence. }
  assert (Ez : z1 = z2).
  { destruct (w_zone w); cbn in *; try congruence; destruct Fz1 as (a1 & b1 & Fa1 & Fb1 & ->), Fz2 as (a2 & b2 & Fa2 & Fb2 & ->);
      rewrite (fixed_inj _ _ _ _ Fa1 Fa2), (fixed_inj _ _ _ _ Fb1 Fb2); reflexivity. }
  congruence.
Qed.

Lemma gen_written_object t :
  dt_year t < 10000 -> value_ranges t -> (forall v, dt_millisecond t = Some v -> v < 2 ^ 32) ->
  exists enc frac, to_vec (tober_gen t) = Ok enc /\ bytes_ok enc
    /\ gen_text_of (written_as t frac) (gen_text t)
    /\ match dt_millisecond t, frac with
       | None, None => True
       | Some v, Some ds => Forall (fun d => d < 10) ds /\ v = value_be 10 ds /\ (ds = [0] \/ hd 0 ds <> 0)
       | _, _ => False
       end
    /\ ~ In 44 (gen_text t)
    /\ forall x, starts_with_object Universal false 24 (gen_text t) (enc ++ x) x.
Proof.
  intros Hy Hr Hv. destruct (gen_text_written t Hy Hr) as (frac & T & M & L & N44 & W1 & W2).
  destruct (writes_starts (tober_gen t) Universal false 24 (gen_text t)) as (enc & E & Hok & S).
  - split; [reflexivity|]. split; [exact W1|exact W2].
  - reflexivity.
  - rewrite L. destruct frac as [ds|]; [|reflexivity]. destruct (dt_millisecond t) as [v|]; [|destruct M].
    specialize (Hv v eq_refl). destruct M as (F & V & H).
    assert (B : (length (decimal v) <= 10)%nat).
    { apply decimal_short; [lia|]. change (2 ^ 32) with 4294967296 in Hv. change (10 ^ N.of_nat 10) with 10000000000. lia. }
    destruct (decimal_ok v) as (es & Ed & G & V' & H'). rewrite Ed, map_length in B.
    assert (es = ds) by (apply (digits_unique v); auto).
    subst es. unfold blen. change (2 ^ 64) with 18446744073709551616. lia.
  - eapply text_bytes. exact T.
  - exists enc, frac. auto 8.
Qed.

Lemma utc_fields t : dt_millisecond t = None -> dt_tz t = TzZ -> t = fields (written_as t None).
Proof. intros Hm Hz. unfold fields, written_as, seconds. cbn. rewrite <- Hm, <- Hz. destruct t; reflexivity. Qed.

(** ** C35: UTCTime round trip *)

Theorem C35_utc_roundtrip (t : datetime) :
  dt_year t < 100 -> value_ranges t -> dt_millisecond t = None -> dt_tz t = TzZ ->
  exists enc content,
    to_vec (tober_utc t) = Ok enc /\ (forall x, starts_with_object Universal false 23 content (enc ++ x) x)
    /\ utc_canonical (written_as t None) content /\ blen content = 13
    /\ reads_ber utc_codec enc t /\ reads_der utc_codec enc t.
Proof.
  intros Hy Hr Hm Hz. destruct (utc_written_object t Hy Hr) as (enc & E & Hok & L & T & S).
  exists enc, (utc_text t). do 2 (split; [assumption|]). split; [exact T|]. split; [exact L|].
  assert (A : forall x, bytes_ok x -> exists c content w, starts_with_object c false 23 content (enc ++ x) x
     /\ utc_text_of w content /\ in_range w /\ utc_supported w /\ t = fields w).
  { intros x Hx. exists Universal, (utc_text t), (written_as t None). split; [apply S|]. split; [apply T|].
    split; [exact Hr|]. split; [discriminate|]. apply utc_fields; assumption. }
  split; intros x Hx; specialize (A x Hx); destruct (C37_utc_accept (enc ++ x) x t) as (P1 & P2 & P3 & P4);
    try (apply bytes_ok_app; split; assumption).
  - split; [apply P1|apply P2]; exact A.
  - split; [apply P3|apply P4]; exact A.
Qed.
Print Assumptions C35_utc_roundtrip.

Example C35_case :
  let t := mk_datetime 99 12 31 23 59 58 None TzZ in
  value_ranges t
  /\ to_vec (tober_utc t) = Ok ([23; 13] ++ dg [9; 9; 1; 2; 3; 1; 2; 3; 5; 9; 5; 8] ++ [90])
  /\ from_der utc_codec ([23; 13] ++ dg [9; 9; 1; 2; 3; 1; 2; 3; 5; 9; 5; 8] ++ [90; 1]) = Ok ([1], t).
Proof. cbv zeta. split; [unfold value_ranges; cbn; lia|]. split; vm_compute; reflexivity. Qed.

(** Outside the range of the property: a year of three digits makes the content longer than announced. *)
Example C35_year_case :
  to_vec (tober_utc (mk_datetime 2023 1 2 3 4 5 None TzZ))
  = Ok ([23; 13] ++ dg [2; 0; 2; 3; 0; 1; 0; 2; 0; 3; 0; 4; 0; 5] ++ [90]).
Proof. vm_compute. reflexivity. Qed.

(** ** C36: GeneralizedTime round trip *)

Lemma stable_digits v ds :
  Forall (fun d => d < 10) ds -> v = value_be 10 ds -> ds = [0] \/ hd 0 ds <> 0 ->
  (v = 0 \/ 100 <= v <= 999) <-> ((length ds <= 3)%nat /\ read_fraction ds = v).
Proof.
  intros F V H.
  assert (Hne : ds <> []) by (intros ->; destruct H as [H|H]; [discriminate|apply H; reflexivity]).
  destruct H as [->|H]; [cbn in V; subst v; split; [intros _; split; [cbn; lia|reflexivity]|auto]|].
  unfold read_fraction. destruct ds as [|a ds]; [congruence|]. cbn [hd] in H.
  inversion F as [|? ? Fa F1]; subst. rewrite value_be_cons. cbn [length] in *.
  destruct ds as [|b ds]; [cbn; split; intros; lia|]. inversion F1 as [|? ? Fb F2]; subst. rewrite value_be_cons. cbn [length] in *.
  destruct ds as [|c ds].
  { change (10 ^ N.of_nat 1) with 10. change (10 ^ N.of_nat 0) with 1. rewrite value_be_nil. cbn [length]. cbv iota. split; intros; lia. }
  inversion F2 as [|? ? Fc F3]; subst. rewrite value_be_cons. cbn [length] in *.
  destruct ds as [|d ds].
  { change (10 ^ N.of_nat 2) with 100. change (10 ^ N.of_nat 1) with 10. change (10 ^ N.of_nat 0) with 1. rewrite value_be_nil. cbn [length]. cbv iota. split; intros; [split; lia|lia]. }
  cbn [length]. split; [|intros; lia]. intros X. exfalso.
  assert (1000 <= 10 ^ N.of_nat (S (S (S (length ds))))).
  { change 1000 with (10 ^ 3). apply N.pow_le_mono_r; lia. }
  nia.
Qed.

Lemma gen_reads_written t frac :
  value_ranges t -> dt_tz t = TzZ ->
  match dt_millisecond t, frac with
  | None, None => True
  | Some v, Some ds => Forall (fun d => d < 10) ds /\ v = value_be 10 ds /\ (ds = [0] \/ hd 0 ds <> 0)
  | _, _ => False
  end ->
  stable_ms (dt_millisecond t) ->
  in_range (written_as t frac) /\ gen_supported (written_as t frac) /\ t = fields (written_as t frac).
Proof.
  intros Hr Hz M Hs. split; [exact Hr|]. unfold fields, written_as, seconds. cbn. rewrite <- Hz.
  destruct (dt_millisecond t) as [v|] eqn:Em, frac as [ds|]; try (destruct M; fail); cbn in Hs.
  - destruct M as (F & V & H). destruct (proj1 (stable_digits v ds F V H) Hs) as [L R]. split.
    + split; [discriminate|]. cbn. split; [discriminate|]. intros _. exact L.
    + rewrite R, <- Em. destruct t; reflexivity.
  - split; [split; [discriminate|exact I]|]. rewrite <- Em. destruct t; reflexivity.
Qed.

Theorem C36_gen_roundtrip_partial (t : datetime) :
  dt_year t <= 9999 -> value_ranges t -> dt_tz t = TzZ -> stable_ms (dt_millisecond t) ->
  exists enc, to_vec (tober_gen t) = Ok enc /\ reads_ber gen_codec enc t /\ reads_der gen_codec enc t.
Proof.
  intros Hy Hr Hz Hs. destruct (gen_written_object t) as (enc & frac & E & Hok & T & M & N44 & S); [lia|exact Hr| |].
  { intros v Ev. rewrite Ev in Hs. cbn in Hs. change (2 ^ 32) with 4294967296. lia. }
  destruct (gen_reads_written t frac Hr Hz M Hs) as (R & Sp & Ef). exists enc. split; [exact E|].
  split; intros x Hx; destruct (C37_gen_accept (enc ++ x) x t) as (P1 & P2 & P3 & P4);
    try (apply bytes_ok_app; split; assumption).
  - split; [apply P1|apply P2]; eexists _, _, _; (split; [apply S|]); eauto.
  - split; [apply P3|apply P4]; eexists _, _, _; (split; [apply S|]); (split; [exact T|]); auto 8.
Qed.
Print Assumptions C36_gen_roundtrip_partial.

(** For the other milliseconds the value does not come back: 1 to 99 are read as a multiple, and beyond 999 the
    text is rejected. *)
Theorem C36_milliseconds_lost (t : datetime) (v : N) :
  dt_year t <= 9999 -> value_ranges t -> dt_tz t = TzZ -> dt_millisecond t = Some v -> v < 2 ^ 32 ->
  1 <= v < 100 \/ 1000 <= v ->
  exists enc, to_vec (tober_gen t) = Ok enc /\ from_ber gen_codec enc <> Ok ([], t) /\ from_der gen_codec enc <> Ok ([], t)
    /\ parse_ber gen_codec enc <> Ok ([], t) /\ parse_der gen_codec enc <> Ok ([], t).
Proof.
  intros Hy Hr Hz Hm Hv Hbad. destruct (gen_written_object t) as (enc & frac & E & Hok & T & M & N44 & S); [lia|exact Hr| |].
  { intros v' Ev. rewrite Hm in Ev. injection Ev as <-. exact Hv. }
  rewrite Hm in M. destruct frac as [ds|]; [|destruct M]. destruct M as (F & V & H).
  assert (K : forall c content w, starts_with_object c false 24 content enc [] -> gen_text_of w content -> gen_supported w ->
     t = fields w -> False).
  { intros c content w S' T' Sw Ef. pose proof (S []) as S0. rewrite app_nil_r in S0.
    destruct (object_det _ _ _ _ _ _ _ _ _ _ _ Hok S0 S') as (_ & _ & _ & <- & _).
    assert (Fr : w_fraction w = Some ds /\ w_zone w = Utc).
    { assert (Ez : w_zone w = Utc) by (apply (ends_with_Z _ _ _ T'), (ends_with_Z _ _ _ T); reflexivity). split; [|exact Ez].
      assert (Es : w_second w <> None).
      { intros En. destruct Sw as [Sw _]. destruct (Sw En) as [_ Ef']. rewrite Ef in Hm. cbn in Hm. rewrite Ef' in Hm. discriminate. }
      destruct T as (y1 & mo1 & d1 & h1 & mi1 & s1 & f1 & z1 & Fy1 & Fmo1 & Fd1 & Fh1 & Fmi1 & Fs1 & Ff1 & Fz1 & E1).
      destruct T' as (y2 & mo2 & d2 & h2 & mi2 & s2 & f2 & z2 & Fy2 & Fmo2 & Fd2 & Fh2 & Fmi2 & Fs2 & Ff2 & Fz2 & E2).
      rewrite E1 in E2. cbn in Fs1, Ff1, Fz1. destruct (w_second w) as [n|]; [|congruence]. cbn in Fs2.
      apply app_inj_pre in E2 as [_ E2]; [|rewrite (fixed_length _ _ _ Fy1), (fixed_length _ _ _ Fy2); reflexivity].
      apply app_inj_pre in E2 as [_ E2]; [|rewrite (fixed_length _ _ _ Fmo1), (fixed_length _ _ _ Fmo2); reflexivity].
      apply app_inj_pre in E2 as [_ E2]; [|rewrite (fixed_length _ _ _ Fd1), (fixed_length _ _ _ Fd2); reflexivity].
      apply app_inj_pre in E2 as [_ E2]; [|rewrite (fixed_length _ _ _ Fh1), (fixed_length _ _ _ Fh2); reflexivity].
      apply app_inj_pre in E2 as [_ E2]; [|rewrite (fixed_length _ _ _ Fmi1), (fixed_length _ _ _ Fmi2); reflexivity].
      apply app_inj_pre in E2 as [_ E2]; [|rewrite (fixed_length _ _ _ Fs1), (fixed_length _ _ _ Fs2); reflexivity].
      rewrite Ez in Fz2. cbn in Fz2. subst z1 z2. apply app_inj_tail in E2 as [E2 _]. subst f2.
      destruct Ff1 as (_ & c1 & _ & ->). destruct (w_fraction w) as [es|]; cbn in Ff2; [|discriminate].
      destruct Ff2 as (_ & c2 & _ & E2). injection E2 as _ E2. apply map48_inj in E2. congruence. }
    destruct Fr as [Fr Ez]. rewrite Ef in Hm. cbn in Hm. rewrite Fr in Hm. injection Hm as Hm.
    destruct Sw as [_ Sw]. rewrite Fr in Sw. destruct Sw as [_ Sw]. rewrite Ez in Sw. specialize (Sw ltac:(discriminate)).
    pose proof (proj2 (stable_digits v ds F V H) (conj Sw Hm)). lia. }
  exists enc. split; [exact E|]. destruct (C37_gen_accept enc [] t Hok) as (P1 & P2 & P3 & P4).
  split; [|split; [|split]]; intros X.
  - apply P2 in X as (c & d & w & X & T' & _ & Sw & Ef). eapply K; eassumption.
  - apply P4 in X as (c & d & w & X & T' & _ & Sw & Ef & _). eapply K; eassumption.
  - apply P1 in X as (c & d & w & X & T' & _ & Sw & Ef). eapply K; eassumption.
  - apply P3 in X as (c & d & w & X & T' & _ & Sw & Ef & _). eapply K; eassumption.
Qed.
Print Assumptions C36_milliseconds_lost.

(** Five milliseconds come back as five hundred; a thousand are rejected. *)
Theorem C36_milliseconds_refuted :
  exists t t' u,
    t = mk_datetime 2023 1 2 3 4 5 (Some 5) TzZ /\ t' = mk_datetime 2023 1 2 3 4 5 (Some 500) TzZ
    /\ u = mk_datetime 2023 1 2 3 4 5 (Some 1000) TzZ
    /\ bind (to_vec (tober_gen t)) (from_der gen_codec) = Ok ([], t')
    /\ bind (to_vec (tober_gen u)) (from_der gen_codec) = Err EInvalidValue.
Proof. eexists _, _, _. do 3 (split; [reflexivity|]). split; vm_compute; reflexivity. Qed.
Print Assumptions C36_milliseconds_refuted.

Example C36_case :
  let t := mk_datetime 9999 12 31 23 59 59 (Some 120) TzZ in
  value_ranges t /\ stable_ms (dt_millisecond t)
  /\ bind (to_vec (tober_gen t)) (from_der gen_codec) = Ok ([], t)
  /\ to_vec (tober_gen (mk_datetime 33 1 2 3 4 5 None TzZ))
     = Ok ([24; 15] ++ dg [0; 0; 3; 3; 0; 1; 0; 2; 0; 3; 0; 4; 0; 5] ++ [90]).
Proof. cbv zeta. split; [unfold value_ranges; cbn; lia|]. split; [cbn; lia|]. split; vm_compute; reflexivity. Qed.

(** ** C37: writing what was read *)

(** A UTCTime written back denotes an instant later by the offset of the text that was read. *)
Theorem C37_utc_reencode_partial (i rem : bytes) (t : datetime) :
  bytes_ok i -> from_ber utc_codec i = Ok (rem, t) ->
  exists c content w enc content' w',
    starts_with_object c false 23 content i rem /\ utc_text_of w content
    /\ to_vec (tober_utc t) = Ok enc /\ starts_with_object Universal false 23 content' enc [] /\ utc_canonical w' content'
    /\ w_year w' = w_year w
    /\ forall D y, written_instant D y w' = (written_instant D y w + zone_minutes (w_zone w) * 60000)%Z.
Proof.
  intros Hi E. apply (C37_utc_accept i rem t Hi) in E as (c & d & w & H & T & R & _ & ->).
  assert (Hy : w_year w < 100) by (destruct T as ((y & ? & ? & ? & ? & ? & ? & ? & Fy & _) & _); exact (fixed_bound _ _ _ Fy)).
  destruct (utc_written_object (fields w) Hy R) as (enc & E & Hok & L & T' & S).
  exists c, d, w, enc, (utc_text (fields w)), (written_as (fields w) None). split; [exact H|]. split; [exact T|]. split; [exact E|].
  split; [specialize (S []); rewrite app_nil_r in S; exact S|]. split; [exact T'|]. split; [reflexivity|].
  intros D y. unfold written_instant, instant, written_as. destruct T as (_ & -> & _). cbn. lia.
Qed.
Print Assumptions C37_utc_reencode_partial.

Theorem C37_gen_reencode_partial (i rem : bytes) (t : datetime) :
  bytes_ok i -> from_ber gen_codec i = Ok (rem, t) -> stable_ms (dt_millisecond t) ->
  exists c content w enc content' w',
    starts_with_object c false 24 content i rem /\ gen_text_of w content
    /\ to_vec (tober_gen t) = Ok enc /\ starts_with_object Universal false 24 content' enc [] /\ gen_text_of w' content'
    /\ w_zone w' = Utc /\ w_year w' = w_year w
    /\ ((w_zone w <> Local \/ match w_fraction w with None => True | Some ds => (length ds <= 3)%nat end) ->
        forall D y, written_instant D y w' = (written_instant D y w + zone_minutes (w_zone w) * 60000)%Z).
Proof.
  intros Hi E Hs. apply (C37_gen_accept i rem t Hi) in E as (c & d & w & H & T & R & [_ Sw] & ->).
  assert (Hy : w_year w < 10000) by (destruct T as (y & ? & ? & ? & ? & ? & ? & ? & Fy & _); exact (fixed_bound _ _ _ Fy)).
  destruct (gen_written_object (fields w) Hy R) as (enc & frac & E & Hok & T' & M & _ & S).
  { intros v Ev. rewrite Ev in Hs. cbn in Hs. change (2 ^ 32) with 4294967296. lia. }
  exists c, d, w, enc, (gen_text (fields w)), (written_as (fields w) frac). split; [exact H|]. split; [exact T|]. split; [exact E|].
  split; [specialize (S []); rewrite app_nil_r in S; exact S|]. split; [exact T'|]. split; [reflexivity|]. split; [reflexivity|].
  intros Hl D y. unfold written_instant, instant. change (seconds (written_as (fields w) frac)) with (seconds w). cbn.
  assert (Em : match frac with Some ds => thousandths ds | None => 0 end = match w_fraction w with Some ds => thousandths ds | None => 0 end).
  { cbn in M, Hs. destruct (w_fraction w) as [ds|], frac as [es|]; try (destruct M; fail); [|reflexivity].
    destruct M as (F & V & Hh). destruct (proj1 (stable_digits _ es F V Hh) Hs) as [L Rf].
    rewrite <- (read_fraction_thousandths es L), Rf. apply read_fraction_thousandths.
    destruct Hl as [Hl|Hl]; [|exact Hl]. apply Sw. exact Hl. }
  rewrite Em. lia.
Qed.
Print Assumptions C37_gen_reencode_partial.

(** So a time read with an offset is written as another instant. *)
Theorem C37_reencode_refuted :
  exists text text' w w',
    utc_text_of w text /\ bind (utc_from_bytes text) (fun t => to_vec (tober_utc t)) = Ok ([23; 13] ++ text')
    /\ utc_canonical w' text'
    /\ forall D y, written_instant D y w' <> written_instant D y w.
Proof.
  exists (dg [2; 3; 0; 1; 0; 2; 0; 3; 0; 4; 0; 5] ++ [43] ++ dg [0; 1; 0; 0]), (dg [2; 3; 0; 1; 0; 2; 0; 3; 0; 4; 0; 5] ++ [90]).
  exists (mk_written 23 1 2 3 4 (Some 5) None (East 1 0)), (mk_written 23 1 2 3 4 (Some 5) None Utc).
  assert (F : forall ds, Forall (fun d => d < 10) ds -> forall k n, length ds = k -> value_be 10 ds = n -> fixed k n (dg ds)).
  { intros ds F k n E1 E2. exists ds. auto. }
  assert (P : forall z s, zone_text z s -> z <> Local ->
    utc_text_of (mk_written 23 1 2 3 4 (Some 5) None z) (dg [2; 3; 0; 1; 0; 2; 0; 3; 0; 4; 0; 5] ++ s)).
  { intros z s T Hz. split; [|split; [reflexivity|exact Hz]].
    eexists (dg [2; 3]), (dg [0; 1]), (dg [0; 2]), (dg [0; 3]), (dg [0; 4]), (dg [0; 5]), [], s.
    cbn [w_year w_month w_day w_hour w_minute w_second w_fraction w_zone second_text frac_text].
    do 6 (split; [apply F; [repeat constructor|reflexivity|reflexivity]|]). split; [reflexivity|]. split; [exact T|reflexivity]. }
  split; [apply P; [|discriminate]|].
  { exists (dg [0; 1]), (dg [0; 0]). split; [apply F; [repeat constructor|reflexivity|reflexivity]|].
    split; [apply F; [repeat constructor|reflexivity|reflexivity]|reflexivity]. }
  split; [vm_compute; reflexivity|]. split.
  - split; [apply P; [reflexivity|discriminate]|]. split; [discriminate|reflexivity].
  - intros D y. unfold written_instant, instant. cbn. lia.
Qed.
Print Assumptions C37_reencode_refuted.

(** ** C52: canonical times *)

(** The canonical UTCTimes are read in DER, whatever the class. *)
Theorem C52_utc_complete (c : class) (i rem content : bytes) (w : written) :
  bytes_ok i -> starts_with_object c false 23 content i rem -> utc_canonical w content -> in_range w ->
  parse_der utc_codec i = Ok (rem, fields w) /\ from_der utc_codec i = Ok (rem, fields w).
Proof.
  intros Hi H (T & S & Z) R. destruct (C37_utc_accept i rem (fields w) Hi) as (_ & _ & P3 & P4).
  split; [apply P3|apply P4]; exists c, content, w; repeat (split; [assumption|]); (split; [|reflexivity]); intros E; congruence.
Qed.
Print Assumptions C52_utc_complete.

Theorem C52_gen_complete_partial (c : class) (i rem content : bytes) (w : written) :
  bytes_ok i -> starts_with_object c false 24 content i rem -> gen_canonical w content -> in_range w ->
  match w_fraction w with None => True | Some ds => (length ds <= 3)%nat end ->
  parse_der gen_codec i = Ok (rem, fields w) /\ from_der gen_codec i = Ok (rem, fields w).
Proof.
  intros Hi H (T & S & Z & N44 & _) R L. destruct (C37_gen_accept i rem (fields w) Hi) as (_ & _ & P3 & P4).
  assert (Sw : gen_supported w).
  { split; [intros E; congruence|]. destruct (w_fraction w); [|exact I]. split; [congruence|auto]. }
  split; [apply P3|apply P4]; exists c, content, w; auto 9.
Qed.
Print Assumptions C52_gen_complete_partial.

(** The writers produce canonical times; a GeneralizedTime if its milliseconds do not end in 0. *)
Theorem C52_utc_written (t : datetime) :
  dt_year t < 100 -> value_ranges t ->
  exists enc content w, to_vec (tober_utc t) = Ok enc /\ starts_with_object Universal false 23 content enc []
    /\ utc_canonical w content.
Proof.
  intros Hy Hr. destruct (utc_written_object t Hy Hr) as (enc & E & Hok & L & T & S). specialize (S []). rewrite app_nil_r in S. eauto 8.
Qed.
Print Assumptions C52_utc_written.

Lemma value_last ds : value_be 10 ds mod 10 = last ds 0 mod 10.
Proof.
  destruct ds as [|d ds] using rev_ind; [reflexivity|]. rewrite value_be_snoc, last_last. lia.
Qed.

Theorem C52_gen_written_partial (t : datetime) :
  dt_year t < 10000 -> value_ranges t -> (forall v, dt_millisecond t = Some v -> v < 2 ^ 32 /\ v mod 10 <> 0) ->
  exists enc content w, to_vec (tober_gen t) = Ok enc /\ starts_with_object Universal false 24 content enc []
    /\ gen_canonical w content.
Proof.
  intros Hy Hr Hm. destruct (gen_written_object t Hy Hr) as (enc & frac & E & Hok & T & M & N44 & S); [intros v Ev; apply Hm; exact Ev|].
  specialize (S []). rewrite app_nil_r in S. exists enc, (gen_text t), (written_as t frac). split; [exact E|]. split; [exact S|].
  split; [exact T|]. split; [discriminate|]. split; [reflexivity|]. split; [exact N44|]. cbn.
  destruct (dt_millisecond t) as [v|], frac as [ds|]; try (destruct M; fail); [|exact I].
  destruct M as (F & V & _). destruct (Hm v eq_refl) as [_ Hv]. rewrite V, value_last in Hv. split.
  - intros ->. apply Hv. reflexivity.
  - intros El. rewrite El in Hv. apply Hv. reflexivity.
Qed.
Print Assumptions C52_gen_written_partial.

(** DER accepts times that are not canonical: a UTCTime with an offset, times without seconds, fractions ending in
    0 and empty fractions. *)
Theorem C52_accepted_refuted :
  exists t1 t2 t3 t4 t5,
    from_der utc_codec ([23; 17] ++ dg [2; 3; 0; 1; 0; 2; 0; 3; 0; 4; 0; 5] ++ [43] ++ dg [0; 1; 0; 0]) = Ok ([], t1)
    /\ from_der utc_codec ([23; 11] ++ dg [2; 3; 0; 1; 0; 2; 0; 3; 0; 4] ++ [90]) = Ok ([], t2)
    /\ from_der gen_codec ([24; 13] ++ dg [2; 0; 2; 3; 0; 1; 0; 2; 0; 3; 0; 4] ++ [90]) = Ok ([], t3)
    /\ from_der gen_codec ([24; 18] ++ dg [2; 0; 2; 3; 0; 1; 0; 2; 0; 3; 0; 4; 0; 5] ++ [46] ++ dg [5; 0] ++ [90]) = Ok ([], t4)
    /\ from_der gen_codec ([24; 16] ++ dg [2; 0; 2; 3; 0; 1; 0; 2; 0; 3; 0; 4; 0; 5] ++ [46; 90]) = Ok ([], t5)
    /\ (forall w, ~ utc_canonical w (dg [2; 3; 0; 1; 0; 2; 0; 3; 0; 4; 0; 5] ++ [43] ++ dg [0; 1; 0; 0]))
    /\ (forall w, ~ gen_canonical w (dg [2; 0; 2; 3; 0; 1; 0; 2; 0; 3; 0; 4; 0; 5] ++ [46; 90])).
Proof.
  eexists _, _, _, _, _. do 5 (split; [vm_compute; reflexivity|]). split.
  - intros w ((T & _) & _ & Z). apply (ends_with_Z _ _ _ T) in Z. discriminate.
  - intros w (T & S & Z & _ & Fr). destruct T as (y & mo & d & h & mi & sec & fr & z & Fy & Fmo & Fd & Fh & Fmi & Fs & Ff & Fz & E).
    rewrite Z in Fz. cbn in Fz. subst z. destruct (w_second w) as [n|]; [|congruence]. cbn in Fs.
    assert (Ll := f_equal (@length N) E). rewrite !app_length, (fixed_length _ _ _ Fy), (fixed_length _ _ _ Fmo), (fixed_length _ _ _ Fd),
      (fixed_length _ _ _ Fh), (fixed_length _ _ _ Fmi), (fixed_length _ _ _ Fs) in Ll. cbn in Ll.
    destruct (w_fraction w) as [ds|]; cbn in Ff; [|subst fr; cbn in Ll; lia].
    destruct Ff as (_ & c & _ & ->). cbn in Ll. rewrite map_length in Ll. destruct ds; [|cbn in Ll; lia]. destruct Fr. congruence.
Qed.
Print Assumptions C52_accepted_refuted.

(** A canonical fraction of four digits is rejected; a canonical text is not written for 100 milliseconds. *)
Theorem C52_long_fraction_refuted :
  from_der gen_codec ([24; 20] ++ dg [2; 0; 2; 3; 0; 1; 0; 2; 0; 3; 0; 4; 0; 5] ++ [46] ++ dg [1; 2; 3; 4] ++ [90]) = Err EInvalidValue
  /\ to_vec (tober_gen (mk_datetime 2023 1 2 3 4 5 (Some 100) TzZ))
     = Ok ([24; 19] ++ dg [2; 0; 2; 3; 0; 1; 0; 2; 0; 3; 0; 4; 0; 5] ++ [46] ++ dg [1; 0; 0] ++ [90]).
Proof. split; vm_compute; reflexivity. Qed.
Print Assumptions C52_long_fraction_refuted.

Example C52_case :
  let text := dg [2; 0; 2; 3; 0; 1; 0; 2; 0; 3; 0; 4; 0; 5] ++ [46] ++ dg [2; 5] ++ [90] in
  let w := mk_written 2023 1 2 3 4 (Some 5) (Some [2; 5]) Utc in
  gen_canonical w text /\ in_range w
  /\ from_der gen_codec ([24; 18] ++ text ++ [1]) = Ok ([1], mk_datetime 2023 1 2 3 4 5 (Some 250) TzZ).
Proof.
  cbv zeta. split; [|split; [unfold in_range, seconds; cbn; lia|vm_compute; reflexivity]].
  assert (F : forall ds, Forall (fun d => d < 10) ds -> forall k n, length ds = k -> value_be 10 ds = n -> fixed k n (dg ds)).
  { intros ds F k n E1 E2. exists ds. auto. }
  split; [|split; [discriminate|split; [reflexivity|split; [cbn; intuition discriminate|cbn; split; discriminate]]]].
  exists (dg [2; 0; 2; 3]), (dg [0; 1]), (dg [0; 2]), (dg [0; 3]), (dg [0; 4]), (dg [0; 5]), (46 :: dg [2; 5]), [90].
  cbn [w_year w_month w_day w_hour w_minute w_second w_fraction w_zone second_text frac_text].
  do 6 (split; [apply F; [repeat constructor|reflexivity|reflexivity]|]).
  split; [split; [repeat constructor|exists 46; auto]|]. split; reflexivity.
Qed.

(** ** C53: conversion to instants *)

(** Offsets the [time] crate can represent, and not of the form "-00mm". *)
Definition plain_zone (z : zone) : Prop :=
  match z with
  | Local => False
  | Utc => True
  | East h m => h <= 25 /\ m <= 59
  | West h m => h <= 25 /\ m <= 59 /\ (h = 0 -> m = 0)
  end.

Lemma zone_offset z :
  plain_zone z -> match zone_value z with TzOffset h m => utc_offset h m | _ => Ok 0%Z end = Ok (zone_minutes z * 60)%Z.
Proof.
  destruct z as [| |h m|h m]; cbn [plain_zone zone_value zone_minutes]; [tauto|reflexivity| |]; intros H; unfold utc_offset.
  - replace (_ && _)%Z with true by lia. destruct (Z.eqb_spec (Z.of_N h) 0) as [E|E]; f_equal; [lia|].
    rewrite Z.sgn_pos by lia. lia.
  - replace (_ && _)%Z with true by lia. destruct (Z.eqb_spec (- Z.of_N h) 0) as [E|E]; f_equal.
    + destruct H as (_ & _ & H). rewrite H by lia. lia.
    + rewrite Z.sgn_neg by lia. lia.
Qed.

Lemma calendar_date_iff y m d :
  calendar_date y m d = true <-> (-9999 <= y <= 9999)%Z /\ valid_date y m d.
Proof.
  unfold calendar_date, valid_date. rewrite !andb_true_iff, !N.leb_le, !Z.leb_le. split.
  - intros ((((H1 & H2) & H3) & H4) & H5). rewrite month_length_model in H5 by lia. lia.
  - intros (H1 & H2 & H3). rewrite month_length_model by lia. lia.
Qed.

Lemma to_datetime_fields w :
  w_year w < 10000 -> valid_date (Z.of_N (w_year w)) (w_month w) (w_day w) -> in_range w -> plain_zone (w_zone w) ->
  match w_fraction w with None => True | Some ds => (length ds <= 3)%nat /\ Forall (fun d => d < 10) ds end ->
  to_datetime (fields w)
  = Ok (mk_odt (Z.of_N (w_year w)) (w_month w) (w_day w) (w_hour w) (w_minute w) (seconds w)
               (match w_fraction w with None => 0 | Some ds => thousandths ds end) (zone_minutes (w_zone w) * 60)).
Proof.
  intros Hy Hd (H1 & H2 & H3 & H4 & H5) Hz Hf. unfold to_datetime, as_i32. cbn [fields dt_year dt_month dt_day dt_hour dt_minute dt_second dt_millisecond dt_tz].
  replace (w_year w <? 2 ^ 31) with true by (symmetry; apply N.ltb_lt; change (2 ^ 31) with 2147483648; lia).
  rewrite (proj2 (calendar_date_iff _ _ _)) by (split; [lia|exact Hd]). cbn [negb].
  assert (Em : match match w_fraction w with Some ds => Some (read_fraction ds) | None => None end with Some v => v | None => 0 end
    = match w_fraction w with None => 0 | Some ds => thousandths ds end).
  { destruct (w_fraction w); [|reflexivity]. apply read_fraction_thousandths. apply Hf. }
  rewrite Em. assert (Hm : match w_fraction w with None => 0 | Some ds => thousandths ds end <= 999).
  { destruct (w_fraction w) as [ds|]; [|lia]. destruct Hf as [L F]. unfold thousandths.
    pose proof (value_be_bound 10 ds ltac:(lia) F) as B.
    apply N.lt_succ_r. apply N.div_lt_upper_bound; [apply N.pow_nonzero; lia|]. nia. }
  replace (_ && _ && _ && _) with true by lia. cbn [negb]. rewrite zone_offset by exact Hz. reflexivity.
Qed.

Lemma unix_timestamp_instant D y mo d h mi s ms off :
  day_count D -> valid_date y mo d ->
  (unix_timestamp (mk_odt y mo d h mi s ms (off * 60)) * 1000 + Z.of_N ms)%Z = instant D y mo d h mi s ms off.
Proof.
  intros HD Hd. unfold unix_timestamp, instant. cbn [od_year od_month od_day od_hour od_minute od_second od_offset].
  rewrite (day_count_unique D HD y mo d Hd). unfold model_days. lia.
Qed.

Lemma text_fraction n w s : time_text n w s -> match w_fraction w with None => True | Some ds => Forall (fun d => d < 10) ds end.
Proof. intros (? & ? & ? & ? & ? & ? & ? & ? & _ & _ & _ & _ & _ & _ & F & _). destruct (w_fraction w); [apply F|exact I]. Qed.

(** [GeneralizedTime::utc_datetime]: the seconds and the milliseconds of the instant written. *)
Theorem C53_gen_instant (i rem : bytes) (t : datetime) :
  bytes_ok i -> from_ber gen_codec i = Ok (rem, t) ->
  exists c content w, starts_with_object c false 24 content i rem /\ gen_text_of w content
    /\ (valid_date (Z.of_N (w_year w)) (w_month w) (w_day w) -> plain_zone (w_zone w) ->
        exists d, to_datetime t = Ok d
          /\ forall D, day_count D ->
             (unix_timestamp d * 1000 + Z.of_N (od_millisecond d))%Z = written_instant D (Z.of_N (w_year w)) w).
Proof.
  intros Hi E. apply (C37_gen_accept i rem t Hi) in E as (c & d & w & H & T & R & [_ Sw] & ->).
  exists c, d, w. split; [exact H|]. split; [exact T|]. intros Hd Hz.
  assert (Hy : w_year w < 10000) by (destruct T as (y & ? & ? & ? & ? & ? & ? & ? & Fy & _); exact (fixed_bound _ _ _ Fy)).
  rewrite to_datetime_fields; try assumption.
  - eexists. split; [reflexivity|]. intros D HD. cbn [od_millisecond]. apply unix_timestamp_instant; assumption.
  - pose proof (text_fraction _ _ _ T) as F. destruct (w_fraction w) as [ds|]; [|exact I]. split; [|exact F]. apply Sw. intros El. rewrite El in Hz. exact Hz.
Qed.
Print Assumptions C53_gen_instant.

Lemma century_valid y m d : y < 100 -> (valid_date (century y) m d <-> valid_date (Z.of_N y) m d).
Proof.
  intros Hy. unfold valid_date. assert (E : 1 <= m <= 12 -> month_length (century y) m = month_length (Z.of_N y) m); [|split; intros [H1 H2]; (split; [exact H1|]); specialize (E H1); lia].
  intros Hm. unfold month_length. rewrite <- !leap_year_iff.
  assert (El : leap_year (century y) = leap_year (Z.of_N y)); [|rewrite El; reflexivity].
  unfold century, leap_year. destruct (N.ltb_spec y 50).
  - replace (Z.of_N (2000 + y) mod 4 =? 0)%Z with (Z.of_N y mod 4 =? 0)%Z by (apply eq_true_iff_eq; rewrite !Z.eqb_eq; lia).
    replace (Z.of_N (2000 + y) mod 100 =? 0)%Z with (Z.of_N y mod 100 =? 0)%Z by (apply eq_true_iff_eq; rewrite !Z.eqb_eq; lia).
    replace (Z.of_N (2000 + y) mod 400 =? 0)%Z with (Z.of_N y mod 400 =? 0)%Z by (apply eq_true_iff_eq; rewrite !Z.eqb_eq; lia).
    reflexivity.
  - replace (Z.of_N (1900 + y) mod 4 =? 0)%Z with (Z.of_N y mod 4 =? 0)%Z by (apply eq_true_iff_eq; rewrite !Z.eqb_eq; lia).
    replace (Z.of_N (1900 + y) mod 100 =? 0)%Z with false by (symmetry; apply Z.eqb_neq; lia).
    replace (Z.of_N y mod 100 =? 0)%Z with false by (symmetry; apply Z.eqb_neq; lia). reflexivity.
Qed.

(** [UtcTime::utc_adjusted_datetime]: the year is taken between 1950 and 2049.  [UtcTime::timestamp] takes the two
    digits of the year as the year: it is never the instant. *)
Theorem C53_utc_instant_partial (i rem : bytes) (t : datetime) :
  bytes_ok i -> from_ber utc_codec i = Ok (rem, t) ->
  exists c content w, starts_with_object c false 23 content i rem /\ utc_text_of w content
    /\ (valid_date (century (w_year w)) (w_month w) (w_day w) -> plain_zone (w_zone w) ->
        exists d s, utc_adjusted_datetime t = Ok d /\ utc_timestamp t = Ok s
          /\ forall D, day_count D ->
             (unix_timestamp d * 1000)%Z = written_instant D (century (w_year w)) w
             /\ (s * 1000)%Z <> written_instant D (century (w_year w)) w).
Proof.
  intros Hi E. apply (C37_utc_accept i rem t Hi) in E as (c & d & w & H & T & R & _ & ->).
  exists c, d, w. split; [exact H|]. split; [exact T|]. intros Hd Hz.
  assert (Hy : w_year w < 100) by (destruct T as ((y & ? & ? & ? & ? & ? & ? & ? & Fy & _) & _); exact (fixed_bound _ _ _ Fy)).
  pose proof (proj1 (century_valid _ _ _ Hy) Hd) as Hd'. destruct T as (T & Ef & _).
  assert (Et : to_datetime (fields w) = Ok (mk_odt (Z.of_N (w_year w)) (w_month w) (w_day w) (w_hour w) (w_minute w) (seconds w)
               (match w_fraction w with None => 0 | Some ds => thousandths ds end) (zone_minutes (w_zone w) * 60))).
  { apply to_datetime_fields; try assumption; [lia|]. rewrite Ef. exact I. }
  rewrite Ef in Et. unfold utc_adjusted_datetime, utc_timestamp. rewrite Et. cbn [bind od_year od_month od_day od_hour od_minute od_second od_millisecond od_offset].
  replace (if (50 <=? Z.of_N (w_year w))%Z then (Z.of_N (w_year w) + 1900)%Z else (Z.of_N (w_year w) + 2000)%Z) with (century (w_year w)).
  2: { unfold century. destruct (N.ltb_spec (w_year w) 50), (Z.leb_spec 50 (Z.of_N (w_year w))); lia. }
  assert (Hc : (1950 <= century (w_year w) <= 2049)%Z) by (unfold century; destruct (N.ltb_spec (w_year w) 50); lia).
  rewrite (proj2 (calendar_date_iff _ _ _)) by (split; [lia|exact Hd]).
  eexists _, _. split; [reflexivity|]. split; [reflexivity|]. intros D HD.
  pose proof (unix_timestamp_instant D _ _ _ (w_hour w) (w_minute w) (seconds w) 0 (zone_minutes (w_zone w)) HD Hd) as E1.
  pose proof (unix_timestamp_instant D _ _ _ (w_hour w) (w_minute w) (seconds w) 0 (zone_minutes (w_zone w)) HD Hd') as E2.
  unfold written_instant. rewrite Ef. rewrite Z.add_0_r in E1, E2. split; [exact E1|]. rewrite E2.
  unfold instant. rewrite !(day_count_unique D HD) by assumption.
  assert (model_days (Z.of_N (w_year w)) (w_month w) (w_day w) < model_days (century (w_year w)) (w_month w) (w_day w))%Z; [|lia].
  unfold model_days.
  assert (B : forall y, (-1 <= days_before_month y (w_month w) - days_before_month 1 (w_month w) <= 1)%Z).
  { intros y. unfold days_before_month. destruct (2 <? Z.of_N (w_month w))%Z; cbn [andb]; [|lia]. destruct (leap_year y), (leap_year 1); lia. }
  pose proof (B (Z.of_N (w_year w))). pose proof (B (century (w_year w))).
  assert (days_before_year (Z.of_N (w_year w)) + 1000 < days_before_year (century (w_year w)))%Z; [|lia].
  unfold days_before_year. Z.to_euclidean_division_equations. lia.
Qed.
Print Assumptions C53_utc_instant_partial.

(** 2023-01-02T03:04:05Z is second 1672628645 of the epoch; [timestamp] gives an instant of the year 23. *)
Theorem C53_timestamp_refuted :
  exists t d,
    utc_from_bytes (dg [2; 3; 0; 1; 0; 2; 0; 3; 0; 4; 0; 5] ++ [90]) = Ok t
    /\ utc_adjusted_datetime t = Ok d /\ unix_timestamp d = 1672628645%Z
    /\ utc_timestamp t = Ok (-61441275355)%Z.
Proof. eexists _, _. split; [vm_compute; reflexivity|]. split; [vm_compute; reflexivity|]. split; vm_compute; reflexivity. Qed.
Print Assumptions C53_timestamp_refuted.

Example C53_case :
  day_count model_days
  /\ (forall D, day_count D -> D 2024%Z 2 29 = 19782%Z)
  /\ plain_zone (West 2 30) /\ valid_date (century 24) 2 29 /\ ~ valid_date (century 23) 2 29
  /\ bind (utc_from_bytes (dg [2; 4; 0; 2; 2; 9; 2; 3; 0; 0; 0; 0] ++ [45] ++ dg [0; 2; 3; 0])) utc_adjusted_datetime
     = Ok (mk_odt 2024 2 29 23 0 0 0 (-9000)).
Proof.
  split; [exact model_day_count|]. split.
  - intros D HD. rewrite (day_count_unique D HD); [reflexivity|]. split; [lia|]. vm_compute. split; discriminate.
  - split; [cbn; lia|]. split; [split; [lia|vm_compute; split; discriminate]|]. split; [|vm_compute; reflexivity].
    intros [_ [_ H]]. vm_compute in H. apply H. reflexivity.
Qed.

(** ** C54: display *)

Lemma pad_signed_nat n : pad_signed 2 (Z.of_N n) = pad 2 n.
Proof. unfold pad_signed. destruct (Z.ltb_spec (Z.of_N n) 0); [lia|]. rewrite N2Z.id. reflexivity. Qed.

(** The zone printed: an offset of zero hours always gets a minus sign. *)
Definition shown_zone (z : zone) : zone := match z with East 0 m => West 0 m | _ => z end.

Lemma offset_text_shown z h m :
  zone_value z = TzOffset h m -> (exists s, zone_text z s) -> exists s, offset_text h m = Ok s /\ zone_text (shown_zone z) s.
Proof.
  intros E [s T]. unfold offset_text. destruct z as [| |a b|a b]; try discriminate; cbn in E; injection E as <- <-; cbn [zone_text] in T;
    destruct T as (x & y & Fx & Fy & _); apply fixed_bound in Fx, Fy; change (10 ^ N.of_nat 2) with 100 in *.
  - destruct (Z.ltb_spec 0 (Z.of_N a)).
    + eexists. split; [reflexivity|]. rewrite !pad_signed_nat. destruct a; [lia|]. cbn. exists (pad 2 (Npos p)), (pad 2 b).
      split; [apply pad2; exact Fx|]. split; [apply pad2; exact Fy|reflexivity].
    + assert (a = 0) by lia. subst a. destruct (Z.eqb_spec (Z.of_N 0) (-128)); [lia|]. eexists. split; [reflexivity|].
      change (- Z.of_N 0)%Z with (Z.of_N 0). rewrite !pad_signed_nat. cbn. exists (pad 2 0), (pad 2 b).
      split; [apply pad2; lia|]. split; [apply pad2; exact Fy|reflexivity].
  - destruct (Z.ltb_spec 0 (- Z.of_N a)); [lia|]. destruct (Z.eqb_spec (- Z.of_N a) (-128)); [lia|]. eexists. split; [reflexivity|].
    rewrite Z.opp_involutive, !pad_signed_nat. cbn. exists (pad 2 a), (pad 2 b).
    split; [apply pad2; exact Fx|]. split; [apply pad2; exact Fy|reflexivity].
Qed.

Lemma fraction_shown x : exists frac, shown_fraction x frac /\ frac_text frac (fraction_text x).
Proof.
  destruct x as [v|]; [|exists None; split; [exact I|reflexivity]]. destruct (decimal_ok v) as (ds & E & F & V & H). exists (Some ds).
  split; [cbn; auto|]. cbn [frac_text fraction_text]. rewrite E. split; [exact F|]. exists 46. auto.
Qed.

Lemma date_time_text_ok w fr z frac zn :
  w_year w < 10000 -> in_range w -> frac_text frac fr -> zone_text zn z ->
  display_text (mk_written (w_year w) (w_month w) (w_day w) (w_hour w) (w_minute w) (Some (seconds w)) frac zn)
    (date_time_text (fields w) ++ fr ++ z).
Proof.
  intros Hy (H1 & H2 & H3 & H4 & H5) Hf Hz.
  eexists (pad 4 (w_year w)), (pad 2 (w_month w)), (pad 2 (w_day w)), (pad 2 (w_hour w)), (pad 2 (w_minute w)), (pad 2 (seconds w)), fr, z.
  cbn [w_year w_month w_day w_hour w_minute w_fraction w_zone].
  split; [apply pad4; lia|]. do 5 (split; [apply pad2; cbn; lia|]). split; [exact Hf|]. split; [exact Hz|].
  unfold date_time_text. cbn [fields dt_year dt_month dt_day dt_hour dt_minute dt_second]. rewrite <- !app_assoc. reflexivity.
Qed.

(** Display never panics on what was read; it prints the fields, the offset "+00mm" excepted. *)
Theorem C54_utc_display_partial (i rem : bytes) (t : datetime) :
  bytes_ok i -> from_ber utc_codec i = Ok (rem, t) ->
  exists c content w s, starts_with_object c false 23 content i rem /\ utc_text_of w content
    /\ utc_display t = Ok s
    /\ display_text (mk_written (w_year w) (w_month w) (w_day w) (w_hour w) (w_minute w) (Some (seconds w)) None (shown_zone (w_zone w))) s.
Proof.
  intros Hi E. apply (C37_utc_accept i rem t Hi) in E as (c & d & w & H & T & R & _ & ->).
  assert (Hy : w_year w < 100) by (destruct T as ((y & ? & ? & ? & ? & ? & ? & ? & Fy & _) & _); exact (fixed_bound _ _ _ Fy)).
  assert (Tz : exists s, zone_text (w_zone w) s) by (destruct T as ((? & ? & ? & ? & ? & ? & ? & z & _ & _ & _ & _ & _ & _ & _ & Fz & _) & _); eauto).
  assert (D : forall s, zone_text (shown_zone (w_zone w)) s ->
     display_text (mk_written (w_year w) (w_month w) (w_day w) (w_hour w) (w_minute w) (Some (seconds w)) None (shown_zone (w_zone w)))
       (date_time_text (fields w) ++ s)).
  { intros s Hs. apply (date_time_text_ok w [] s None); [lia|exact R|reflexivity|exact Hs]. }
  exists c, d, w. unfold utc_display. cbn [fields dt_tz].
  destruct (w_zone w) as [| |a b|a b] eqn:Ez.
  - destruct T as (_ & _ & T). congruence.
  - eexists. split; [exact H|]. split; [exact T|]. split; [reflexivity|]. apply D. reflexivity.
  - destruct (offset_text_shown (East a b) _ _ eq_refl Tz) as (s & Es & Ts). cbn [zone_value]. rewrite Es. cbn [bind].
    eexists. split; [exact H|]. split; [exact T|]. split; [reflexivity|]. apply D. exact Ts.
  - destruct (offset_text_shown (West a b) _ _ eq_refl Tz) as (s & Es & Ts). cbn [zone_value]. rewrite Es. cbn [bind].
    eexists. split; [exact H|]. split; [exact T|]. split; [reflexivity|]. apply D. exact Ts.
Qed.
Print Assumptions C54_utc_display_partial.

Theorem C54_gen_display_partial (i rem : bytes) (t : datetime) :
  bytes_ok i -> from_ber gen_codec i = Ok (rem, t) ->
  exists c content w s frac, starts_with_object c false 24 content i rem /\ gen_text_of w content
    /\ gen_display t = Ok s
    /\ display_text (mk_written (w_year w) (w_month w) (w_day w) (w_hour w) (w_minute w) (Some (seconds w)) frac (shown_zone (w_zone w))) s
    /\ shown_fraction (dt_millisecond t) frac
    /\ (match w_fraction w, frac with
        | None, None => True
        | Some ds, Some es => (length ds <= 3)%nat -> stable_ms (dt_millisecond t) -> thousandths es = thousandths ds
        | _, _ => False
        end).
Proof.
  intros Hi E. apply (C37_gen_accept i rem t Hi) in E as (c & d & w & H & T & R & _ & ->).
  assert (Hy : w_year w < 10000) by (destruct T as (y & ? & ? & ? & ? & ? & ? & ? & Fy & _); exact (fixed_bound _ _ _ Fy)).
  assert (Tz : exists s, zone_text (w_zone w) s) by (destruct T as (? & ? & ? & ? & ? & ? & ? & z & _ & _ & _ & _ & _ & _ & _ & Fz & _); eauto).
  destruct (fraction_shown (dt_millisecond (fields w))) as (frac & Sf & Tf).
  assert (Hfr : match w_fraction w, frac with
        | None, None => True
        | Some ds, Some es => (length ds <= 3)%nat -> stable_ms (dt_millisecond (fields w)) -> thousandths es = thousandths ds
        | _, _ => False
        end).
  { cbn in Sf |- *. destruct (w_fraction w) as [ds|], frac as [es|]; try exact Sf. intros L Hs. cbn in Hs. destruct Sf as (F & V & Hh).
    destruct (proj1 (stable_digits _ _ F V Hh) Hs) as [L' Rf]. rewrite <- (read_fraction_thousandths es L'), Rf. apply read_fraction_thousandths. exact L. }
  assert (D : forall s, zone_text (shown_zone (w_zone w)) s ->
     display_text (mk_written (w_year w) (w_month w) (w_day w) (w_hour w) (w_minute w) (Some (seconds w)) frac (shown_zone (w_zone w)))
       (date_time_text (fields w) ++ fraction_text (dt_millisecond (fields w)) ++ s)).
  { intros s Hs. apply (date_time_text_ok w _ s frac); [lia|exact R|exact Tf|exact Hs]. }
  assert (Fin : forall s, gen_display (fields w) = Ok (date_time_text (fields w) ++ fraction_text (dt_millisecond (fields w)) ++ s) ->
     zone_text (shown_zone (w_zone w)) s ->
     exists c content w0 s frac, starts_with_object c false 24 content i rem /\ gen_text_of w0 content
    /\ gen_display (fields w) = Ok s
    /\ display_text (mk_written (w_year w0) (w_month w0) (w_day w0) (w_hour w0) (w_minute w0) (Some (seconds w0)) frac (shown_zone (w_zone w0))) s
    /\ shown_fraction (dt_millisecond (fields w)) frac
    /\ (match w_fraction w0, frac with
        | None, None => True
        | Some ds, Some es => (length ds <= 3)%nat -> stable_ms (dt_millisecond (fields w)) -> thousandths es = thousandths ds
        | _, _ => False
        end)).
  { intros s E Hs. exists c, d, w, (date_time_text (fields w) ++ fraction_text (dt_millisecond (fields w)) ++ s), frac.
    split; [exact H|]. split; [exact T|]. split; [exact E|]. split; [apply D; exact Hs|]. split; [exact Sf|exact Hfr]. }
  destruct (w_zone w) as [| |a b|a b] eqn:Ez.
  - apply (Fin []); [|reflexivity]. unfold gen_display. cbn [fields dt_tz]. rewrite Ez. cbn [zone_value]. rewrite app_nil_r. reflexivity.
  - apply (Fin [90]); [|reflexivity]. unfold gen_display. cbn [fields dt_tz]. rewrite Ez. cbn [zone_value]. rewrite <- app_assoc. reflexivity.
  - destruct (offset_text_shown (East a b) _ _ eq_refl Tz) as (s & Es & Ts). apply (Fin s); [|exact Ts].
    unfold gen_display. cbn [fields dt_tz]. rewrite Ez. cbn [zone_value]. rewrite Es. cbn [bind]. rewrite <- app_assoc. reflexivity.
  - destruct (offset_text_shown (West a b) _ _ eq_refl Tz) as (s & Es & Ts). apply (Fin s); [|exact Ts].
    unfold gen_display. cbn [fields dt_tz]. rewrite Ez. cbn [zone_value]. rewrite Es. cbn [bind]. rewrite <- app_assoc. reflexivity.
Qed.
Print Assumptions C54_gen_display_partial.

(** "+0030" is displayed as "-0030", and fifty milliseconds as ".50". *)
Theorem C54_display_refuted :
  exists t u,
    gen_from_bytes (dg [2; 0; 2; 3; 0; 1; 0; 2; 0; 3; 0; 4; 0; 5] ++ [43] ++ dg [0; 0; 3; 0]) = Ok t
    /\ gen_display t = Ok (dg [2; 0; 2; 3] ++ [45] ++ dg [0; 1] ++ [45] ++ dg [0; 2] ++ [32] ++ dg [0; 3] ++ [58] ++ dg [0; 4] ++ [58]
                           ++ dg [0; 5] ++ [45] ++ dg [0; 0; 3; 0])
    /\ gen_from_bytes (dg [2; 0; 2; 3; 0; 1; 0; 2; 0; 3; 0; 4; 0; 5] ++ [46] ++ dg [0; 5] ++ [90]) = Ok u
    /\ gen_display u = Ok (dg [2; 0; 2; 3] ++ [45] ++ dg [0; 1] ++ [45] ++ dg [0; 2] ++ [32] ++ dg [0; 3] ++ [58] ++ dg [0; 4] ++ [58]
                           ++ dg [0; 5] ++ [46] ++ dg [5; 0] ++ [90]).
Proof. eexists _, _. do 3 (split; [vm_compute; reflexivity|]). vm_compute. reflexivity. Qed.
Print Assumptions C54_display_refuted.

(** Values that were not read: the zone can hold any two octets with sign.  The hours are shown without their sign, the
    sign of the minutes takes the place of a digit, and the least number of hours panics. *)
Definition two_or_more (n : N) (s : list N) : Prop := (n < 100 /\ fixed 2 n s) \/ (100 <= n /\ decimal_text n s).
Lemma pad_two n : two_or_more n (pad 2 n).
Proof.
  destruct (N.lt_ge_cases n 100) as [H|H]; [left; split; [exact H|apply pad2, H]|right; split; [exact H|]].
  pose proof (decimal_ok n) as D. unfold pad. replace (2 - length (decimal n))%nat with O; [exact D|].
  destruct D as (ds & E & F & V & _). rewrite E, map_length. destruct ds as [|a [|b [|c r]]]; cbn; try lia.
  - cbn in V. lia.
  - inversion F; subst. cbn in *. lia.
Qed.
Theorem C54_offsets t hh mm :
  dt_tz t = TzOffset hh mm -> (-128 <= hh < 128)%Z -> (-128 <= mm < 128)%Z ->
  (hh = -128 -> utc_display t = Panic /\ gen_display t = Panic)%Z
  /\ (hh <> -128 -> exists p q a b,
        let z := (if 0 <? hh then 43%N else 45%N) :: a ++ b in
        utc_display t = Ok (p ++ z) /\ gen_display t = Ok (q ++ z)
        /\ two_or_more (Z.abs_N hh) a
        /\ (0 <= mm -> two_or_more (Z.to_N mm) b)
        /\ (mm < 0 -> exists s, b = 45%N :: s /\ decimal_text (Z.to_N (- mm)) s))%Z.
Proof.
  intros E Hh Hm. unfold utc_display, gen_display. rewrite E. unfold offset_text. split.
  - intros ->. split; reflexivity.
  - intros Hn. pose (a := pad 2 (Z.abs_N hh)). pose (b := pad_signed 2 mm).
    assert (Eo : (if (0 <? hh)%Z then Ok (43 :: pad_signed 2 hh ++ pad_signed 2 mm)
                  else if (hh =? -128)%Z then Panic else Ok (45 :: pad_signed 2 (- hh) ++ pad_signed 2 mm))
                 = Ok ((if (0 <? hh)%Z then 43 else 45) :: a ++ b)).
    { unfold a, b. destruct (Z.ltb_spec 0 hh).
      - replace hh with (Z.of_N (Z.abs_N hh)) at 1 by lia. rewrite pad_signed_nat. reflexivity.
      - destruct (Z.eqb_spec hh (-128)); [lia|]. replace (- hh)%Z with (Z.of_N (Z.abs_N hh)) by lia. rewrite pad_signed_nat. reflexivity. }
    rewrite Eo. cbn [bind]. eexists _, _, a, b. split; [reflexivity|]. split; [reflexivity|]. split; [apply pad_two|]. split.
    + intros H. unfold b. replace mm with (Z.of_N (Z.to_N mm)) by lia. rewrite pad_signed_nat, N2Z.id. apply pad_two.
    + intros H. unfold b, pad_signed. destruct (Z.ltb_spec mm 0); [|lia]. eexists. split; [reflexivity|].
      unfold pad. destruct (decimal_ok (Z.to_N (- mm))) as (ds & Ed & F & V & Hd). rewrite Ed, map_length.
      replace (2 - 1 - length ds)%nat with O by (destruct ds; [destruct Hd as [Hd|Hd]; [discriminate|cbn in Hd; congruence]|cbn; lia]).
      cbn. exists ds. auto.
Qed.
Print Assumptions C54_offsets.
Example C54_offsets_case :
  utc_display (mk_datetime 23 1 2 3 4 5 None (TzOffset (-1) (-5)))
  = Ok (dg [0; 0; 2; 3] ++ [45] ++ dg [0; 1] ++ [45] ++ dg [0; 2] ++ [32] ++ dg [0; 3] ++ [58] ++ dg [0; 4] ++ [58] ++ dg [0; 5]
        ++ [45] ++ dg [0; 1] ++ [45] ++ dg [5]).
Proof. reflexivity. Qed.

(** A value that was not read can panic. *)
Example C54_panic_case : gen_display (mk_datetime 2023 1 2 3 4 5 None (TzOffset (-128) 0)) = Panic.
Proof. reflexivity. Qed.

Example C54_case :
  bind (gen_from_bytes (dg [2; 0; 2; 3; 0; 1; 0; 2; 0; 3; 0; 4; 0; 5] ++ [44] ++ dg [2; 5] ++ [45] ++ dg [1; 2; 3; 0])) gen_display
  = Ok (dg [2; 0; 2; 3] ++ [45] ++ dg [0; 1] ++ [45] ++ dg [0; 2] ++ [32] ++ dg [0; 3] ++ [58] ++ dg [0; 4] ++ [58]
        ++ dg [0; 5] ++ [46] ++ dg [2; 5; 0] ++ [45] ++ dg [1; 2; 3; 0]).
Proof. vm_compute. reflexivity. Qed.
