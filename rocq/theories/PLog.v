(** The shape of a log. *)
From Verif Require Import Base MHeader MEncode MBer MInt MCont MSpan SSpan PSpan PropSpan MTrace PropTrace.

(** [len] octets of [whole] from [start]. *)
Definition octets_at (whole : bytes) (start len : N) : bytes := firstn (N.to_nat len) (skipn (N.to_nat start) whole).

(** What a failure leaves: message, place and error, then a dump of the octets there. *)
Inductive report (whole : bytes) (s : site) (start len : N) : list line -> Prop :=
| report_failed e : report whole s start len (LFailed s start e :: dump_of (octets_at whole start len))
| report_missing n : report whole s start len (LMissing s start n :: dump_of (octets_at whole start len)).

(** With [trace]: a line of entry has a line of exit or a report, of the same function at the same place; in between is what the
    functions it calls write; and the octets read and the octets left are those there were. *)
Inductive bracketed (whole : bytes) : list line -> Prop :=
| br_nil : bracketed whole []
| br_parsed s start len inner n r rest : bracketed whole inner -> n + r = len -> bracketed whole rest ->
    bracketed whole (LEnter s start len :: inner ++ LParsed s start n r :: rest)
| br_failed s start len inner rep rest : bracketed whole inner -> report whole s start len rep -> bracketed whole rest ->
    bracketed whole (LEnter s start len :: inner ++ rep ++ rest).

(** Without: reports and nothing else. *)
Inductive reports (whole : bytes) : list line -> Prop :=
| re_nil : reports whole []
| re_cons s start len rep rest : report whole s start len rep -> reports whole rest -> reports whole (rep ++ rest).

Lemma bracketed_app whole a b : bracketed whole a -> bracketed whole b -> bracketed whole (a ++ b).
Proof.
  intros A B. induction A as [|s st len inner n r rest A1 IH1 E A2 IH|s st len inner rep rest A1 IH1 R A2 IH]; [exact B|..]; cbn; rewrite <- !app_assoc; cbn.
  - apply br_parsed; assumption.
  - apply br_failed; assumption.
Qed.
Lemma reports_app whole a b : reports whole a -> reports whole b -> reports whole (a ++ b).
Proof. intros A B. induction A as [|s st len rep rest R A2 IH]; [exact B|]. rewrite <- app_assoc. eapply re_cons; eassumption. Qed.

Section Log.
Context (c : config) (whole : bytes).

Definition shape : list line -> Prop := if cf_trace c then bracketed whole else reports whole.
Lemma shape_nil : shape [].
Proof. unfold shape. destruct (cf_trace c); constructor. Qed.
Lemma shape_app a b : shape a -> shape b -> shape (a ++ b).
Proof. unfold shape. destruct (cf_trace c); [apply bracketed_app | apply reports_app]. Qed.

Definition shaped {A} (m : lres A) : Prop := cf_debug c = true -> bytes_ok whole -> snd m <> SPanic -> shape (fst m).
Lemma shaped_silent {A} (r : sres A) : shaped (silent r).
Proof. intros _ _ _. exact shape_nil. Qed.
Lemma shaped_bind {A B} (m : lres A) (f : A -> lres B) : shaped m -> (forall a, snd m = SOk a -> shaped (f a)) -> shaped (lbind m f).
Proof.
  unfold shaped, lbind. intros M F D B' P. destruct (snd m) as [a| | |]; cbn [fst snd] in *; try (apply M; try assumption; discriminate); [|congruence].
  apply shape_app; [apply M; try assumption; discriminate | apply F; auto].
Qed.
Lemma located_octets i : located whole i -> in_data i = octets_at whole (in_start i) (blen (in_data i)).
Proof.
  intros (pre & post & -> & -> & _). unfold octets_at, blen. rewrite !Nat2N.id, skipn_app, skipn_all, Nat.sub_diag, app_nil_l.
  rewrite skipn_O, firstn_app, Nat.sub_diag, firstn_all, firstn_O, app_nil_r. reflexivity.
Qed.
Lemma shaped_trace {T} s (f : input -> lres (input * T)) i : small whole -> located whole i ->
  (forall q, snd (f i) = SOk q -> suffix whole i (fst q)) -> shaped (f i) -> shaped (trace_input c s f i).
Proof.
  intros W L Sx F D B P. destruct (C101_log c s f whole i B W L D) as (E1 & E2 & E3). cbv zeta in E1, E2, E3.
  pose proof (located_octets i L) as O. specialize (F D B). unfold shape in *.
  assert (X: snd (f i) <> SPanic).
  { intros X. apply P. rewrite trace_result, X. reflexivity. }
  specialize (F X). destruct (snd (f i)) as [[rem x]|at_ e|n|] eqn:Ef.
  - rewrite (E3 rem x eq_refl (Sx _ eq_refl)). cbn [fst]. destruct (cf_trace c); [|cbn; rewrite app_nil_r; exact F].
    cbn [app]. apply br_parsed; [exact F | | constructor]. pose proof (suffix_len whole i rem L (Sx _ eq_refl)). cbn [fst] in *. lia.
  - rewrite (E1 at_ e eq_refl). cbn [fst]. rewrite O at 2. destruct (cf_trace c).
    + cbn [app]. rewrite <- (app_nil_r (_ :: dump_of _)). apply br_failed; [exact F | constructor | constructor].
    + cbn [app]. apply reports_app; [exact F|]. rewrite <- (app_nil_r (_ :: dump_of _)). eapply re_cons; constructor.
  - rewrite (E2 n eq_refl). cbn [fst]. rewrite O at 2. destruct (cf_trace c).
    + cbn [app]. rewrite <- (app_nil_r (_ :: dump_of _)). apply br_failed; [exact F | constructor | constructor].
    + cbn [app]. apply reports_app; [exact F|]. rewrite <- (app_nil_r (_ :: dump_of _)). eapply re_cons; constructor.
  - congruence.
Qed.
Lemma shaped_close {A} (m : lres A) i : shaped m -> shaped (fst m, s_close i (snd m)).
Proof. intros M D B P. apply M; auto. cbn [snd] in P. intros X. apply P. rewrite X. reflexivity. Qed.
End Log.
