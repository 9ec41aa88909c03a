(** C56, the character forms: exactly which texts are read, and that the number held is close to the one written. *)
From Coq Require Import SpecFloat QArith Qpower Qabs Lqa.
From Verif Require Import Base MHeader MEncode SHeader PArith PHeader PEncode MBer SBer PBer
  MInt SInt PCodec PInt MOid SOid POid PTime MText SText PText MReal PFloat SReal PReal PropTime PropReal PDecimal PropDecimal PRound PropReals.
Local Open Scope Z_scope.

(** ** Texts of numbers *)

(** An optional exponent: E or e, an optional sign, digits. *)
Definition exponent_text (y : Z) (s : list N) : Prop :=
  s = [] /\ y = 0
  \/ exists et neg sg es, e_text et /\ sign_text neg sg /\ es <> [] /\ Forall (fun d => (d < 10)%N) es
       /\ s = et ++ sg ++ digits es /\ y = (if neg then - Z.of_N (value_be 10 es) else Z.of_N (value_be 10 es)).
(** Digits, an optional point with digits, at least one digit in all, an optional exponent: the number is [v 10^x]. *)
Definition unsigned_text (v x : Z) (s : list N) : Prop :=
  exists ds pt fs ex y, Forall (fun d => (d < 10)%N) ds /\ Forall (fun d => (d < 10)%N) fs /\ ds ++ fs <> []
    /\ (pt = [46%N] \/ pt = [] /\ fs = []) /\ exponent_text y ex /\ s = digits ds ++ pt ++ digits fs ++ ex
    /\ v = Z.of_N (value_be 10 (ds ++ fs)) /\ x = y - Z.of_nat (length fs).
Definition number_text (neg : bool) (v x : Z) (s : list N) : Prop :=
  exists sg u, sign_text neg sg /\ unsigned_text v x u /\ s = sg ++ u.
(** "inf", "infinity" and "nan" in letters of either case. *)
Definition letters (s word : list N) : Prop := Forall2 (fun c w => c = w \/ (c + 32)%N = w) s word.
Definition infinity_text (s : list N) : Prop := letters s [105; 110; 102]%N \/ letters s [105; 110; 102; 105; 110; 105; 116; 121]%N.
Definition nan_text (s : list N) : Prop := letters s [110; 97; 110]%N.

(** ** What [str::parse] reads *)

Definition no_digit (r : list N) : Prop := match r with [] => True | c :: _ => is_digit c = false end.
Lemma span_digits_spec s : forall d r, span_digits s = (d, r) -> exists ds, d = digits ds /\ Forall (fun d => (d < 10)%N) ds /\ s = digits ds ++ r /\ no_digit r.
Proof.
  induction s as [|c s IH]; intros d r E; cbn [span_digits] in E.
  - injection E as <- <-. exists []. repeat split. constructor.
  - destruct (is_digit c) eqn:D.
    + destruct (span_digits s) as [d1 r1] eqn:S. injection E as <- <-. destruct (IH _ _ eq_refl) as (ds & -> & F & -> & Nd).
      unfold is_digit in D. apply andb_true_iff in D as [D1 D2]. apply N.leb_le in D1, D2. exists ((c - 48)%N :: ds).
      cbn [digits map app]. replace (48 + (c - 48))%N with c by lia. repeat split; try exact Nd. constructor; [lia|exact F].
    + injection E as <- <-. exists []. repeat split; [constructor|]. exact D.
Qed.
Lemma digits_inv a b : digits a = digits b -> a = b.
Proof.
  revert b. induction a as [|x a IH]; intros [|y b] E; try discriminate; [reflexivity|]. cbn [digits map] in E. injection E as E1 E2.
  f_equal; [lia|]. apply IH, E2.
Qed.
Lemma sign_span s : let (neg, r) := span_sign s in exists sg, sign_text neg sg /\ s = sg ++ r.
Proof.
  destruct s as [|c s]; cbn [span_sign]; [exists []; split; [left|]; reflexivity|].
  destruct (N.eqb_spec c 43) as [->|_]; [exists [43%N]; split; [right; auto|reflexivity]|].
  destruct (N.eqb_spec c 45) as [->|_]; [exists [45%N]; split; [left|]; reflexivity|]. exists []. split; [left|]; reflexivity.
Qed.
Lemma span_sign_text neg sg r : sign_text neg sg -> match r with [] => True | c :: _ => (c <> 43 /\ c <> 45)%N end -> span_sign (sg ++ r) = (neg, r).
Proof.
  intros [->|[-> ->]] H; [destruct neg; [reflexivity|]|reflexivity]. cbn [app]. destruct r as [|c r]; [reflexivity|]. unfold span_sign.
  destruct (N.eqb_spec c 43); [tauto|]. destruct (N.eqb_spec c 45); [tauto|]. reflexivity.
Qed.
Lemma digits_head ds r : ds <> [] -> Forall (fun d => (d < 10)%N) ds -> exists c l, digits ds ++ r = c :: l /\ (48 <= c <= 57)%N.
Proof. destruct ds as [|d ds]; [congruence|]. intros _ F. apply Forall_cons_iff in F as [F _]. cbn [digits map app]. eexists _, _. split; [reflexivity|]. lia. Qed.

Lemma parse_exponent_iff s y : parse_exponent s = Some y <-> exponent_text y s.
Proof.
  unfold exponent_text. split.
  - destruct s as [|c s]; cbn [parse_exponent]; [intros [= <-]; auto|]. destruct (N.eqb_spec (lower c) 101) as [Hc|]; [|discriminate].
    pose proof (sign_span s) as S. destruct (span_sign s) as [neg r]. destruct S as (sg & S & ->).
    destruct (span_digits r) as [d r'] eqn:D. apply span_digits_spec in D as (es & -> & F & -> & _).
    destruct (digits es) as [|c0 l] eqn:De; [discriminate|]. rewrite <- De. destruct r' as [|]; [|discriminate]. intros [= <-]. right.
    exists [c], neg, sg, es. repeat split; try assumption.
    + unfold lower in Hc. destruct ((65 <=? c) && (c <=? 90))%N eqn:B; [left; f_equal; apply andb_true_iff in B as [B1 B2]; apply N.leb_le in B1, B2; lia|right; congruence].
    + intros ->. discriminate.
    + cbn [app]. rewrite app_nil_r. reflexivity.
    + rewrite <- digits_value_be. reflexivity.
  - intros [[-> ->]|(et & neg & sg & es & E & S & Ne & F & -> & ->)]; [reflexivity|].
    assert (G : forall c, lower c = 101%N -> parse_exponent (c :: sg ++ digits es) = Some (if neg then - Z.of_N (value_be 10 es) else Z.of_N (value_be 10 es))).
    { intros c Hc. unfold parse_exponent. rewrite Hc. cbn [N.eqb Pos.eqb]. rewrite span_sign_text with (neg := neg);
        [|exact S|destruct (digits_head es [] Ne F) as (c' & l & E' & H); rewrite app_nil_r in E'; rewrite E'; lia].
      pose proof (span_digits_app es [] F I) as SD. rewrite app_nil_r in SD. rewrite SD, digits_value_be.
      destruct (digits es) eqn:De; [destruct es; [congruence|discriminate]|]. reflexivity. }
    destruct E as [-> | ->]; apply G; reflexivity.
Qed.

Lemma exponent_head y ex : exponent_text y ex -> no_digit ex /\ match ex with [] => True | c :: _ => c <> 46%N end.
Proof. intros [[-> _]|(et & neg & sg & es & [-> | ->] & _ & _ & _ & -> & _)]; cbn; repeat split; discriminate. Qed.
Lemma digits_app a b : digits (a ++ b) = digits a ++ digits b.
Proof. apply map_app. Qed.

Lemma parse_number_iff neg s f : parse_number neg s = Some f <-> exists v x, unsigned_text v x s /\ f = round_decimal neg v x.
Proof.
  unfold parse_number. split.
  - destruct (span_digits s) as [int r] eqn:D. apply span_digits_spec in D as (ds & -> & Fd & -> & Nr).
    set (fp := match r with c :: r' => if (c =? 46)%N then span_digits r' else ([], r) | [] => ([], []) end).
    assert (X : exists pt fs r', fp = (digits fs, r') /\ Forall (fun d => (d < 10)%N) fs /\ (pt = [46%N] \/ pt = [] /\ fs = []) /\ r = pt ++ digits fs ++ r').
    { unfold fp. destruct r as [|c r']; [exists [], [], []; repeat split; [constructor|right; auto]|].
      destruct (N.eqb_spec c 46) as [->|_].
      - destruct (span_digits r') as [d2 r2] eqn:D. apply span_digits_spec in D as (fs & -> & Ff & -> & _). exists [46%N], fs, r2. repeat split; [exact Ff|left; reflexivity].
      - exists [], [], (c :: r'). repeat split; [constructor|right; auto]. }
    destruct X as (pt & fs & r' & X & Ff & Hp & ->). rewrite X. clear X fp Nr. intros E.
    assert (E' : ds ++ fs <> [] /\ match parse_exponent r' with
      | Some x => Some (round_decimal neg (digits_value (digits ds ++ digits fs)) (x - Z.of_nat (length (digits fs)))) | None => None end = Some f).
    { destruct ds, fs; cbn [digits map] in E |- *; try discriminate; (split; [discriminate|exact E]). }
    clear E. destruct E' as [Ne E]. destruct (parse_exponent r') as [y|] eqn:P; [|discriminate]. injection E as <-. apply parse_exponent_iff in P.
    rewrite <- digits_app, digits_value_be. exists (Z.of_N (value_be 10 (ds ++ fs))), (y - Z.of_nat (length fs)). split; [|unfold digits; rewrite map_length; reflexivity].
    exists ds, pt, fs, r', y. repeat split; assumption.
  - intros (v & x & (ds & pt & fs & ex & y & Fd & Ff & Ne & Hp & Hx & -> & -> & ->) & ->). pose proof (exponent_head y ex Hx) as [H1 H2].
    rewrite span_digits_app; [|exact Fd|].
    2:{ destruct Hp as [-> |[-> ->]]; [reflexivity|]. exact H1. }
    assert (X : match pt ++ digits fs ++ ex with c :: r' => if (c =? 46)%N then span_digits r' else ([], pt ++ digits fs ++ ex) | [] => ([], []) end = (digits fs, ex)).
    { destruct Hp as [-> |[-> ->]].
      - cbn [app N.eqb Pos.eqb]. apply span_digits_app; assumption.
      - cbn [app digits map]. destruct ex as [|c ex]; [reflexivity|]. destruct (N.eqb_spec c 46); [congruence|reflexivity]. }
    rewrite X. apply parse_exponent_iff in Hx. rewrite Hx.
    replace (round_decimal neg (Z.of_N (value_be 10 (ds ++ fs))) (y - Z.of_nat (length fs)))
      with (round_decimal neg (digits_value (digits ds ++ digits fs)) (y - Z.of_nat (length (digits fs))))
      by (rewrite <- digits_app, digits_value_be; unfold digits; rewrite map_length; reflexivity).
    destruct ds, fs; cbn [digits map] in *; try reflexivity. cbn in Ne. congruence.
Qed.

Lemma lower_eq c w : (97 <= w <= 122)%N -> (lower c = w <-> c = w \/ (c + 32)%N = w).
Proof.
  intros H. unfold lower. destruct ((65 <=? c) && (c <=? 90))%N eqn:B.
  - apply andb_true_iff in B as [B1 B2]. apply N.leb_le in B1, B2. lia.
  - apply andb_false_iff in B as [B|B]; apply N.leb_gt in B; lia.
Qed.
Lemma letters_iff s word : Forall (fun w => (97 <= w <= 122)%N) word -> (list_eqb (map lower s) word = true <-> letters s word).
Proof.
  intros F. unfold list_eqb. destruct (list_eq_dec N.eq_dec (map lower s) word) as [E|E]; split; try (intros; discriminate); try reflexivity.
  - intros _. subst word. induction s as [|c s IH]; [constructor|]. cbn [map] in F. apply Forall_cons_iff in F as [F1 F2]. constructor; [apply lower_eq; auto|apply IH, F2].
  - intros L. exfalso. apply E. clear E. induction L as [|c w s word H L IH]; [reflexivity|]. apply Forall_cons_iff in F as [F1 F2]. cbn [map]. f_equal; [apply lower_eq; assumption|apply IH, F2].
Qed.
Lemma unsigned_head v x s : unsigned_text v x s -> exists c l, s = c :: l /\ (46 <= c <= 57)%N.
Proof.
  intros (ds & pt & fs & ex & y & Fd & Ff & Ne & Hp & Hx & -> & _ & _). destruct ds as [|d ds].
  - destruct Hp as [-> |[-> ->]]; [|cbn in Ne; congruence]. cbn [digits map app]. eexists _, _. split; [reflexivity|]. lia.
  - apply Forall_cons_iff in Fd as [Fd _]. cbn [digits map app]. eexists _, _. split; [reflexivity|]. lia.
Qed.

(** [f64::from_str]: numbers, correctly rounded, and the three names. *)
Lemma parse_f64_iff s f : parse_f64 s = Some f <->
  (exists neg v x, number_text neg v x s /\ f = round_decimal neg v x)
  \/ (exists neg sg w, sign_text neg sg /\ infinity_text w /\ s = sg ++ w /\ f = S754_infinity neg)
  \/ (exists neg sg w, sign_text neg sg /\ nan_text w /\ s = sg ++ w /\ f = S754_nan).
Proof.
  assert (W1 : Forall (fun w => (97 <= w <= 122)%N) [105; 110; 102]%N) by (repeat constructor; discriminate).
  assert (W2 : Forall (fun w => (97 <= w <= 122)%N) [105; 110; 102; 105; 110; 105; 116; 121]%N) by (repeat constructor; discriminate).
  assert (W3 : Forall (fun w => (97 <= w <= 122)%N) [110; 97; 110]%N) by (repeat constructor; discriminate).
  unfold parse_f64. split.
  - pose proof (sign_span s) as S. destruct (span_sign s) as [neg r]. destruct S as (sg & S & ->). cbv zeta.
    destruct (_ || _) eqn:I.
    { intros E; injection E as <-. right. left. exists neg, sg, r. repeat split; [exact S|]. apply orb_true_iff in I as [I|I]; apply letters_iff in I; try assumption; [left|right]; exact I. }
    destruct (list_eqb (map lower r) [110; 97; 110]%N) eqn:J.
    { intros E. assert (f = S754_nan) as -> by congruence. right. right. exists neg, sg, r. repeat split; [exact S|]. apply letters_iff in J; assumption. }
    intros E. apply parse_number_iff in E as (v & x & U & ->). left. exists neg, v, x. split; [|reflexivity]. exists sg, r. auto.
  - intros [(neg & v & x & (sg & u & S & U & ->) & ->)|[(neg & sg & w & S & W & -> & ->)|(neg & sg & w & S & W & -> & ->)]].
    + destruct (unsigned_head _ _ _ U) as (c & l & -> & Hc). rewrite (span_sign_text neg); [|exact S|].
      2:{ split; intros ->; [lia|]. lia. }
      cbv zeta. assert (G : forall word w, (97 <= w)%N -> list_eqb (map lower (c :: l)) (w :: word) = false).
      { intros word w Hw. unfold list_eqb. destruct (list_eq_dec N.eq_dec (map lower (c :: l)) (w :: word)) as [X|]; [|reflexivity].
        cbn [map] in X. injection X as X _. unfold lower in X. destruct ((65 <=? c) && (c <=? 90))%N eqn:B; [apply andb_true_iff in B as [B _]; apply N.leb_le in B|]; lia. }
      rewrite (G [110; 102]%N 105%N ltac:(discriminate)), (G [110; 102; 105; 110; 105; 116; 121]%N 105%N ltac:(discriminate)), (G [97; 110]%N 110%N ltac:(discriminate)).
      cbn [orb]. apply parse_number_iff. eauto.
    + rewrite (span_sign_text neg); [|exact S|].
      2:{ destruct W as [W|W]; inversion W as [|c w' ? ? H]; subst; lia. }
      cbv zeta. replace (_ || _) with true; [reflexivity|]. symmetry. apply orb_true_iff. destruct W as [W|W]; [left|right]; apply letters_iff; assumption.
    + rewrite (span_sign_text neg); [|exact S|].
      2:{ inversion W as [|c w' ? ? H]; subst; lia. }
      cbv zeta. assert (G : forall word, list_eqb (map lower w) (105%N :: word) = false).
      { intros word. inversion W as [|c w' s' ? H]; subst. unfold list_eqb. destruct (list_eq_dec N.eq_dec (map lower (c :: s')) (105%N :: word)) as [X|]; [|reflexivity].
        cbn [map] in X. injection X as X _. apply (lower_eq c 105) in X; lia. }
      rewrite !G. cbn [orb]. replace (list_eqb _ _) with true; [reflexivity|]. symmetry. apply letters_iff; assumption.
Qed.

(** ** Rounding *)

Lemma dy_pos m e : 0 < m -> (0 < dy m e)%Q.
Proof. intros H. unfold dy. rewrite <- (Qmult_0_l (2 ^ e)). apply Qmult_lt_r; [apply two_pos|]. change 0%Q with (inject_Z 0). rewrite <- Zlt_Qlt. exact H. Qed.
Lemma dy_plus a b e : (dy (a + b) e == dy a e + dy b e)%Q.
Proof. unfold dy. rewrite inject_Z_plus. ring. Qed.
Lemma dy_one_lt a b : (dy 1 a < dy 1 b)%Q -> a < b.
Proof.
  intros H. destruct (Z_lt_ge_dec a b) as [L|L]; [exact L|]. exfalso. rewrite dy_compare in H. rewrite Z.min_r in H by lia. rewrite Z.sub_diag in H.
  assert (0 < 2 ^ (a - b)) by (apply Z.pow_pos_nonneg; lia). lia.
Qed.
Lemma dy_pow n e : 0 <= n -> (dy (2 ^ n) e == dy 1 (e + n))%Q.
Proof. intros H. rewrite <- dy_shift by exact H. rewrite Z.mul_1_l. reflexivity. Qed.

(** A number between [m 2^e] and [(m + 1) 2^e], in the normal range, given enough digits: what is kept is within 2^-52 of it. *)
Lemma round_aux_close s m e l X : 0 <= m -> e <= fexp 53 1024 (Zdigits2 m + e) -> (dy m e <= X)%Q -> (X < dy (m + 1) e)%Q ->
  (dy 1 (-1022) <= X)%Q -> (X < dy 1 1023)%Q ->
  exists k ek, binary_round_aux 53 1024 s m e l = S754_finite s k ek /\ bounded 53 1024 k ek = true
    /\ (Qabs (dy (Z.pos k) ek - X) * 2 ^ 52 <= X)%Q.
Proof.
  intros Hm He L U XL XU. destruct m as [|m|m]; [exfalso| |lia].
  { cbn [Zdigits2] in He. unfold fexp, emin in He. assert (dy 1 (-1022) < dy 1 e)%Q as H by (eapply Qle_lt_trans; eassumption).
    apply dy_one_lt in H. lia. }
  cbn [Zdigits2] in He. pose proof (digits_pos m) as (D0 & D1 & D2). destruct (round_aux_any s (Z.pos m) e l ltac:(lia) He) as (q & R & _ & Q).
  cbn [Zdigits2] in R, Q. set (d := Z.pos (digits2_pos m)) in *.
  assert (T1 : d + e <= 1023).
  { assert (dy 1 (e + (d - 1)) < dy 1 1023)%Q as H; [|apply dy_one_lt in H; lia].
    eapply Qle_lt_trans; [|exact XU]. eapply Qle_trans; [|exact L]. rewrite <- dy_pow by lia. apply dy_le. exact D1. }
  assert (T2 : -1022 < d + e).
  { assert (dy 1 (-1022) < dy 1 (e + d))%Q as H; [|apply dy_one_lt in H; lia].
    eapply Qle_lt_trans; [exact XL|]. eapply Qlt_le_trans; [exact U|]. rewrite <- dy_pow by lia. apply dy_le. lia. }
  set (f := fexp 53 1024 (d + e)) in *. assert (Ef : f = d + e - 53) by (unfold f, fexp, emin; lia).
  set (n := f - e) in *. assert (Hn : 0 <= n) by lia. assert (P : 0 < 2 ^ n) by (apply Z.pow_pos_nonneg; lia).
  assert (En : 2 ^ (d - 1) = 2 ^ 52 * 2 ^ n) by (rewrite <- Z.pow_add_r by lia; f_equal; lia).
  assert (En2 : 2 ^ d = 2 ^ 53 * 2 ^ n) by (rewrite <- Z.pow_add_r by lia; f_equal; lia).
  pose proof (Z.div_mod (Z.pos m) (2 ^ n) ltac:(lia)) as DM. pose proof (Z.mod_pos_bound (Z.pos m) (2 ^ n) P) as MB.
  set (fl := Z.pos m / 2 ^ n) in *. set (md := Z.pos m mod 2 ^ n) in *.
  assert (F1 : 2 ^ 52 <= fl) by (change (2 ^ 52) with 4503599627370496 in *; nia).
  assert (F2 : fl < 2 ^ 53) by (change (2 ^ 53) with 9007199254740992 in *; nia).
  destruct Q as [[-> _]|(k & ek & Hf & Ek & C & E)]; [exfalso; change (2 ^ 52) with 4503599627370496 in *; lia|].
  pose proof (digits_pos k) as (J0 & J1 & J2). set (dj := Z.pos (digits2_pos k)) in *.
  assert (HE : ek <= 971).
  { assert (dj + ek <= d + e + 1).
    { destruct (Z_le_gt_dec (dj + ek) (d + e + 1)) as [X0|X0]; [exact X0|]. exfalso.
      assert (2 ^ (dj - 1) * 2 ^ (ek - f) <= q) by (rewrite <- Ek; apply Z.mul_le_mono_nonneg_r; [apply Z.pow_nonneg; lia|exact J1]).
      rewrite <- Z.pow_add_r in H by lia. assert (2 ^ 54 <= 2 ^ (dj - 1 + (ek - f))) by (apply Z.pow_le_mono_r; lia).
      change (2 ^ 54) with 18014398509481984 in *. change (2 ^ 53) with 9007199254740992 in *. lia. }
    unfold canonical_mantissa in C. apply Zeq_bool_eq in C. fold dj in C. unfold fexp, emin in C. lia. }
  exists k, ek. split; [rewrite E; destruct (Z.leb_spec ek 971); [reflexivity|lia]|]. split; [unfold bounded; rewrite C; apply Z.leb_le; lia|].
  assert (V : (dy (Z.pos k) ek == dy (q * 2 ^ n) e)%Q).
  { rewrite dy_shift by exact Hn. replace (e + n) with f by lia. rewrite <- Ek, dy_shift by lia. replace (f + (ek - f)) with ek by lia. reflexivity. }
  assert (B1 : q * 2 ^ n <= Z.pos m + 2 ^ n) by nia. assert (B2 : Z.pos m + 1 <= q * 2 ^ n + 2 ^ n) by nia.
  apply (dy_le _ _ e) in B1, B2. rewrite dy_plus in B1. rewrite (dy_plus (q * 2 ^ n)) in B2.
  assert (B3 : (dy (2 ^ n) e * 2 ^ 52 <= X)%Q).
  { eapply Qle_trans; [|exact L]. rewrite dy_scale. rewrite <- dy_shift by lia. apply dy_le. lia. }
  assert (A : (Qabs (dy (Z.pos k) ek - X) <= dy (2 ^ n) e)%Q) by (apply Qabs_Qle_condition; rewrite V; lra).
  eapply Qle_trans; [|exact B3]. apply Qmult_le_compat_r; [exact A|]. apply Qlt_le_weak, two_pos.
Qed.

Lemma binary_round_form s m e : exists m' e', binary_round 53 1024 s m e = binary_round_aux 53 1024 s (Z.pos m') e' loc_Exact
  /\ (dy (Z.pos m') e' == dy (Z.pos m) e)%Q /\ e' <= fexp 53 1024 (Zdigits2 (Z.pos m') + e').
Proof.
  unfold binary_round, shl_align. set (f := fexp 53 1024 (Z.pos (digits2_pos m) + e)). destruct (f - e) as [|d|d] eqn:E.
  - exists m, e. split; [reflexivity|]. split; [reflexivity|]. cbn [Zdigits2]. fold f. lia.
  - exists m, e. split; [reflexivity|]. split; [reflexivity|]. cbn [Zdigits2]. fold f. lia.
  - exists (shift_pos d m), f. split; [reflexivity|].
    assert (H : shift_pos d m = (m * Z.to_pos (2 ^ Z.pos d))%positive).
    { apply Pos2Z.inj. rewrite shift_pos_mul, Pos2Z.inj_mul, Z2Pos.id by (apply Z.pow_pos_nonneg; lia). reflexivity. }
    split.
    + rewrite H, Pos2Z.inj_mul, Z2Pos.id by (apply Z.pow_pos_nonneg; lia). rewrite dy_shift by lia. replace (f + Z.pos d) with e by lia. reflexivity.
    + cbn [Zdigits2]. rewrite H, digits_mul_pow by lia. replace (Z.pos (digits2_pos m) + Z.pos d + f) with (Z.pos (digits2_pos m) + e) by lia. fold f. lia.
Qed.
Lemma div_core_near a b : let '(q, e, l) := SFdiv_core_binary 53 1024 (Z.pos a) 0 (Z.pos b) 0 in
  e <= 0 /\ q * Z.pos b <= Z.pos a * 2 ^ (- e) < (q + 1) * Z.pos b.
Proof.
  unfold SFdiv_core_binary. cbn [Zdigits2].
  set (da := Z.pos (digits2_pos a)) in *. set (db := Z.pos (digits2_pos b)) in *.
  set (f := fexp 53 1024 (da + 0 - (db + 0))). set (e' := Z.min f (0 - 0)). set (sh := 0 - 0 - e').
  assert (Hs : 0 <= sh) by (unfold sh, e'; lia).
  assert (Em : match sh with Z0 => Z.pos a | Zpos _ => Z.shiftl (Z.pos a) sh | Zneg _ => 0 end = Z.pos a * 2 ^ sh).
  { destruct sh as [|p|p] eqn:E; [rewrite Z.pow_0_r; lia| |lia]. rewrite Z.shiftl_mul_pow2 by lia. reflexivity. }
  rewrite Em. clear Em. pose proof (Z_div_mod (Z.pos a * 2 ^ sh) (Z.pos b) ltac:(lia)) as DM. destruct (Z.div_eucl (Z.pos a * 2 ^ sh) (Z.pos b)) as [q r].
  destruct DM as [DM Hr]. split; [unfold e'; lia|]. replace (- e') with sh by (unfold sh; lia). rewrite DM. split; nia.
Qed.

(** The nearest number of 53 bits to [v 10^x], where that is in the normal range. *)
Lemma round_decimal_close s v x : 0 < v -> let X := (inject_Z v * 10 ^ x)%Q in (2 ^ (-1022) <= X)%Q -> (X < 2 ^ 1023)%Q ->
  exists k ek, round_decimal s v x = S754_finite s k ek /\ bounded 53 1024 k ek = true /\ (Qabs (dy (Z.pos k) ek - X) * 2 ^ 52 <= X)%Q.
Proof.
  intros Hv X L U. destruct v as [|p|p]; [lia|clear Hv|lia].
  assert (O : forall e, (dy 1 e == 2 ^ e)%Q) by (intros; unfold dy; ring).
  cbn [round_decimal].
  assert (G : 0 <= x -> exists k ek, binary_round 53 1024 s (p * Z.to_pos (10 ^ x)) 0 = S754_finite s k ek /\ bounded 53 1024 k ek = true /\ (Qabs (dy (Z.pos k) ek - X) * 2 ^ 52 <= X)%Q).
  { intros Hx. destruct (binary_round_form s (p * Z.to_pos (10 ^ x)) 0) as (m' & e' & -> & Ev & He).
    assert (EX : (X == dy (Z.pos m') e')%Q).
    { rewrite Ev. unfold X, dy. rewrite Pos2Z.inj_mul, Z2Pos.id by (apply Z.pow_pos_nonneg; lia). rewrite inject_Z_mult, Zpower_Qpower by exact Hx.
      change (inject_Z 10) with 10%Q. change (2 ^ 0)%Q with 1%Q. ring. }
    apply round_aux_close; [lia|exact He| | |rewrite O; exact L|rewrite O; exact U]; rewrite EX; [apply Qle_refl|]. apply dy_lt. lia. }
  destruct x as [|x|x]; [apply G; lia|apply G; lia|]. clear G.
  unfold round_ratio. set (b := Z.to_pos (10 ^ Z.pos x)). assert (Eb : Z.pos b = 10 ^ Z.pos x) by (apply Z2Pos.id, Z.pow_pos_nonneg; lia).
  pose proof (div_core_ok p 0 b 0) as K. pose proof (div_core_near p b) as M.
  destruct (SFdiv_core_binary _ _ _ _ _ _) as [[q e] l]. destruct K as [Hq He], M as [Hn [M1 M2]].
  assert (XB : (X * inject_Z (Z.pos b) == inject_Z (Z.pos p))%Q).
  { unfold X. rewrite Eb, Zpower_Qpower by lia. change (inject_Z 10) with 10%Q. rewrite <- Qmult_assoc, <- Qpower_plus by discriminate.
    change (Z.neg x) with (- Z.pos x). rewrite Z.add_opp_diag_l. change (10 ^ 0)%Q with 1%Q. ring. }
  assert (XS : (2 ^ e * inject_Z (2 ^ (- e)) == 1)%Q).
  { rewrite Zpower_Qpower by lia. change (inject_Z 2) with 2%Q. rewrite <- Qpower_plus by exact two_ne. rewrite Z.add_opp_diag_r. reflexivity. }
  assert (BS : (0 < inject_Z (Z.pos b) * inject_Z (2 ^ (- e)))%Q).
  { rewrite <- inject_Z_mult. change 0%Q with (inject_Z 0). rewrite <- Zlt_Qlt. assert (0 < 2 ^ (- e)) by (apply Z.pow_pos_nonneg; lia). nia. }
  assert (EY : forall z, (dy z e * (inject_Z (Z.pos b) * inject_Z (2 ^ (- e))) == inject_Z (z * Z.pos b))%Q).
  { intros z. unfold dy. rewrite inject_Z_mult. setoid_replace (inject_Z z * 2 ^ e * (inject_Z (Z.pos b) * inject_Z (2 ^ (- e))))%Q
      with (inject_Z z * inject_Z (Z.pos b) * (2 ^ e * inject_Z (2 ^ (- e))))%Q by ring. rewrite XS. ring. }
  assert (EX : (X * (inject_Z (Z.pos b) * inject_Z (2 ^ (- e))) == inject_Z (Z.pos p * 2 ^ (- e)))%Q).
  { rewrite Qmult_assoc, XB, inject_Z_mult. reflexivity. }
  apply round_aux_close; [exact Hq|exact He| | |rewrite O; exact L|rewrite O; exact U].
  - apply (Qmult_le_r _ _ _ BS). rewrite EX, EY, <- Zle_Qle. exact M1.
  - apply (Qmult_lt_r _ _ _ BS). rewrite EX, EY, <- Zlt_Qlt. exact M2.
Qed.

(** ** C56: character forms *)

Definition ascii (s : list N) : Prop := Forall (fun b => (b < 128)%N) s.
Lemma digits_ascii l : Forall (fun d => (d < 10)%N) l -> ascii (digits l).
Proof. intros F. apply Forall_map. eapply Forall_impl; [|exact F]. cbn. intros; lia. Qed.
Lemma sign_ascii neg s : sign_text neg s -> ascii s.
Proof. intros [-> |[_ ->]]; [destruct neg|]; repeat constructor. Qed.
Lemma number_ascii neg v x s : number_text neg v x s -> ascii s.
Proof.
  intros (sg & u & S & (ds & pt & fs & ex & y & Fd & Ff & _ & Hp & Hx & -> & _) & ->). apply Forall_app. split; [eapply sign_ascii; exact S|].
  repeat (apply Forall_app; split); try (apply digits_ascii; assumption).
  - destruct Hp as [-> |[-> _]]; repeat constructor.
  - destruct Hx as [[-> _]|(et & n & sg' & es & E & S' & _ & Fe & -> & _)]; [constructor|].
    repeat (apply Forall_app; split); [destruct E as [-> | ->]; repeat constructor|eapply sign_ascii; exact S'|apply digits_ascii; exact Fe].
Qed.
Lemma letters_ascii s word : letters s word -> ascii word -> ascii s.
Proof. intros L A. induction L as [|c w s word H L IH]; [constructor|]. apply Forall_cons_iff in A as [A1 A2]. constructor; [lia|apply IH, A2]. Qed.
Lemma numeral_ascii n s : numeral n s -> ascii s.
Proof. intros (sign & ds & -> & [-> | ->] & _ & F & _); [|constructor; [lia|]]; apply digits_ascii; exact F. Qed.
Lemma utf8_ascii o s : from_utf8 o = Some s -> ascii s -> o = s.
Proof. intros H A. apply from_utf8_iff in H. apply utf8_str_bytes in H as [_ ->]. apply ascii_str_bytes. exact A. Qed.

(** The texts of the forms: NR1 is an unsigned number below 2^32; NR2 and NR3 are one grammar. *)
Definition name_text (s : list N) : Prop := exists neg sg w, sign_text neg sg /\ (infinity_text w \/ nan_text w) /\ s = sg ++ w.
Definition character_form (b : N) (s : bytes) : Prop :=
  (b mod 4 = 1)%N /\ (exists v, numeral v s /\ (v < 2 ^ 32)%N)
  \/ ((b mod 4 = 2 \/ b mod 4 = 3)%N) /\ ((exists neg v x, number_text neg v x s) \/ name_text s).

Lemma decimal_form_iff b s : (exists r, decode_decimal_form b s = Ok r) <-> character_form b s.
Proof.
  unfold decode_decimal_form, character_form. split.
  - intros [r E]. destruct (from_utf8 s) as [t|] eqn:U; [|discriminate]. destruct (N.eqb_spec (b mod 4) 1) as [B|B].
    + left. split; [exact B|]. destruct (parse_uint (2 ^ 32) t) as [v|] eqn:P; [|discriminate]. apply parse_uint_iff in P as [P Q]; [|reflexivity].
      exists v. rewrite (utf8_ascii _ _ U (numeral_ascii _ _ P)). auto.
    + destruct (N.eqb_spec (b mod 4) 0) as [B'|B']; [discriminate|]. right. split; [lia|].
      destruct (parse_f64 t) as [f|] eqn:P; [|discriminate]. apply parse_f64_iff in P.
      destruct P as [(neg & v & x & T & _)|[(neg & sg & w & S & W & Et & _)|(neg & sg & w & S & W & Et & _)]].
      * left. exists neg, v, x. rewrite (utf8_ascii _ _ U (number_ascii _ _ _ _ T)). exact T.
      * right. exists neg, sg, w. repeat split; [exact S|left; exact W|]. rewrite <- Et. apply (utf8_ascii _ _ U). rewrite Et. apply Forall_app.
        split; [eapply sign_ascii; exact S|]. destruct W as [W|W]; eapply letters_ascii; try exact W; repeat constructor.
      * right. exists neg, sg, w. repeat split; [exact S|right; exact W|]. rewrite <- Et. apply (utf8_ascii _ _ U). rewrite Et. apply Forall_app.
        split; [eapply sign_ascii; exact S|]. eapply letters_ascii; [exact W|]; repeat constructor.
  - intros [[B (v & P & Q)]|[B X]].
    + rewrite (ascii_from_utf8 _ (numeral_ascii _ _ P)), B. cbn [N.eqb Pos.eqb]. rewrite (proj2 (parse_uint_iff (2 ^ 32) s v eq_refl)) by auto.
      apply real_new_fine, f64_of_Z_ok.
    + assert (G : exists f, parse_f64 s = Some f /\ ascii s).
      { destruct X as [(neg & v & x & T)|(neg & sg & w & S & [W|W] & ->)].
        - eexists. split; [apply parse_f64_iff; left; eauto|eapply number_ascii; exact T].
        - eexists. split; [apply parse_f64_iff; right; left; exists neg, sg, w; eauto|]. apply Forall_app. split; [eapply sign_ascii; exact S|].
          destruct W as [W|W]; eapply letters_ascii; try exact W; repeat constructor.
        - eexists. split; [apply parse_f64_iff; right; right; exists neg, sg, w; eauto|]. apply Forall_app. split; [eapply sign_ascii; exact S|].
          eapply letters_ascii; [exact W|]; repeat constructor. }
      destruct G as (f & P & A). rewrite (ascii_from_utf8 _ A). destruct (N.eqb_spec (b mod 4) 1) as [Y|_]; [lia|]. destruct (N.eqb_spec (b mod 4) 0) as [Y|_]; [lia|].
      rewrite P. apply real_new_fine. eapply parse_f64_ok. exact P.
Qed.
Lemma read_character b s : (b < 64)%N -> read_content (b :: s) = decode_decimal_form b s.
Proof. intros H. unfold read_content, decode_real. replace (b / 128 mod 2 =? 1)%N with false by lia. replace (b / 64 mod 2 =? 1)%N with false by lia. reflexivity. Qed.

(** Contents octets in character form are read by all parsers or by none, and exactly these texts are read. *)
Theorem C56_text_only (i rem s : bytes) (c : class) (b : N) : bytes_ok i -> starts_with_object c false 9 (b :: s) i rem -> (b < 64)%N ->
  (character_form b s -> exists r, all_read real_codec i rem r) /\ (forall r rem', some_read real_codec i rem' r -> rem' = rem /\ character_form b s).
Proof.
  intros Hi HS Hb. split.
  - intros F. apply decimal_form_iff in F as [r F]. exists r. apply (real_all_read i rem c (b :: s)); [exact Hi|exact HS|]. rewrite read_character by exact Hb. exact F.
  - intros r rem' H. destruct (real_some_read i rem rem' c (b :: s) r Hi HS H) as [-> E]. split; [reflexivity|].
    rewrite read_character in E by exact Hb. apply decimal_form_iff. eauto.
Qed.
Print Assumptions C56_text_only.

Example C56_text_only_case :
  starts_with_object Universal false 9 [3; 45; 46; 53; 101; 45; 50]%N [9; 7; 3; 45; 46; 53; 101; 45; 50; 8]%N [8%N]
  /\ character_form 3 [45; 46; 53; 101; 45; 50]%N /\ ~ character_form 1 [45; 53]%N
  /\ parse_ber real_codec [9; 7; 3; 45; 46; 53; 101; 45; 50; 8]%N = Ok ([8%N], RBinary (f64_of_Z (-5)) 10 (-3) 10).
Proof.
  split; [apply (short_object [3; 45; 46; 53; 101; 45; 50]%N [8%N]); reflexivity|]. split; [|split].
  - right. split; [right; reflexivity|]. left. exists true, 5, (-3), [45%N], [46; 53; 101; 45; 50]%N. split; [left; reflexivity|]. split; [|reflexivity].
    exists [], [46%N], [5%N], [101; 45; 50]%N, (-2). repeat split; [constructor|constructor; [reflexivity|constructor]|discriminate|left; reflexivity|].
    right. exists [101%N], true, [45%N], [2%N]. repeat split; [right; reflexivity|left; reflexivity|discriminate|constructor; [reflexivity|constructor]].
  - rewrite <- decimal_form_iff. intros [r E]. vm_compute in E. discriminate.
  - vm_compute. reflexivity.
Qed.

(** A number in the normal range of [f64]: what is held is within a relative 2^-42 of it. *)
Theorem C56_text_near (i rem s : bytes) (c : class) (b : N) (neg : bool) (v x : Z) :
  bytes_ok i -> starts_with_object c false 9 (b :: s) i rem -> (b < 64)%N -> (b mod 4 = 2 \/ b mod 4 = 3)%N -> number_text neg v x s ->
  (v = 0 -> all_read real_codec i rem RZero)
  /\ (let X := (inject_Z v * 10 ^ x)%Q in (2 ^ (-1022) <= X)%Q -> (X < 2 ^ 1023)%Q ->
      exists r q, all_read real_codec i rem r /\ real_value r = Some q
        /\ (Qabs (q - (if neg then - X else X)) * 2 ^ 42 <= X)%Q).
Proof.
  intros Hi HS Hb B T.
  assert (R : read_content (b :: s) = real_new (round_decimal neg v x)).
  { rewrite read_character by exact Hb. unfold decode_decimal_form. rewrite (ascii_from_utf8 _ (number_ascii _ _ _ _ T)).
    destruct (N.eqb_spec (b mod 4) 1) as [Y|_]; [lia|]. destruct (N.eqb_spec (b mod 4) 0) as [Y|_]; [lia|].
    rewrite (proj2 (parse_f64_iff s (round_decimal neg v x))); [reflexivity|]. left. eauto. }
  split.
  - intros ->. apply (real_all_read i rem c (b :: s)); [exact Hi|exact HS|]. rewrite R. reflexivity.
  - intros X L U. assert (Hv : 0 < v).
    { destruct (Z_lt_le_dec 0 v) as [V|V]; [exact V|]. exfalso. assert (X <= 0)%Q.
      { unfold X. rewrite <- (Qmult_0_l (10 ^ x)). apply Qmult_le_compat_r; [change 0%Q with (inject_Z 0); rewrite <- Zle_Qle; exact V|].
        apply Qpower_0_le. discriminate. }
      pose proof (two_pos (-1022)). lra. }
    destruct (round_decimal_close neg v x Hv L U) as (k & e & E & Bd & Near). fold X in Near.
    destruct (real_new_near neg k e Bd) as (k' & e' & y & E' & _ & _ & _ & _ & Near' & _).
    exists (RBinary (S754_finite neg k' e') 10 y 10), (inject_Z (if neg then Z.neg k' else Z.pos k') * 2 ^ e' * inject_Z (Z.of_N 10) ^ y)%Q.
    split; [apply (real_all_read i rem c (b :: s)); [exact Hi|exact HS|]; rewrite R, E; exact E'|]. split; [reflexivity|].
    change (inject_Z (Z.of_N 10)) with 10%Q. set (D := (dy (Z.pos k') e' * 10 ^ y)%Q) in *. set (Y := dy (Z.pos k) e) in *.
    assert (A : (Qabs (inject_Z (if neg then Z.neg k' else Z.pos k') * 2 ^ e' * 10 ^ y - (if neg then - X else X)) == Qabs (D - X))%Q).
    { unfold D, dy. destruct neg; [|reflexivity]. change (Z.neg k') with (- Z.pos k'). rewrite inject_Z_opp, <- Qabs_opp.
      apply Qabs_wd. ring. }
    rewrite A. clear A R E E' HS T Bd Hi. assert (T : (Qabs (D - X) <= Qabs (D - Y) + Qabs (Y - X))%Q).
    { eapply Qle_trans; [|apply Qabs_triangle]. setoid_replace (D - X)%Q with (D - Y + (Y - X))%Q by ring. apply Qle_refl. }
    assert (Y2 : (Y <= X + Qabs (Y - X))%Q) by (pose proof (Qle_Qabs (Y - X)); lra).
    set (a := Qabs (D - X)) in *. set (a1 := Qabs (D - Y)) in *. set (a2 := Qabs (Y - X)) in *. clearbody a a1 a2 D Y. clearbody X.
    change (2 ^ 42)%Q with (inject_Z 4398046511104). change (2 ^ 43)%Q with (inject_Z 8796093022208) in Near'. change (2 ^ 52)%Q with (inject_Z 4503599627370496) in Near.
    unfold inject_Z in *. lra.
Qed.
Print Assumptions C56_text_near.

(** 0.1 is kept as 1 times 10^-1. *)
Example C56_text_near_case :
  number_text false 1 (-1) [48; 46; 49]%N /\ (2 ^ (-1022) <= inject_Z 1 * 10 ^ (-1))%Q /\ (inject_Z 1 * 10 ^ (-1) < 2 ^ 1023)%Q
  /\ starts_with_object Universal false 9 [2; 48; 46; 49]%N [9; 4; 2; 48; 46; 49]%N []
  /\ parse_der real_codec [9; 4; 2; 48; 46; 49]%N = Ok ([], RBinary (f64_of_Z 1) 10 (-1) 10).
Proof.
  split; [|split; [|split; [|split]]].
  - exists [], [48; 46; 49]%N. split; [left; reflexivity|]. split; [|reflexivity].
    exists [0%N], [46%N], [1%N], [], 0. repeat split; [repeat constructor|repeat constructor|discriminate|left; reflexivity|left; auto].
  - apply Qle_bool_iff. vm_compute. reflexivity.
  - vm_compute. reflexivity.
  - apply (short_object [2; 48; 46; 49]%N []); reflexivity.
  - vm_compute. reflexivity.
Qed.
