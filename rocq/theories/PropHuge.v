(** C55 for every f64 that is an integer, of whatever size, and so without an upper bound. *)
From Coq Require Import SpecFloat QArith Qpower Qabs Lqa Znumtheory.
From Verif Require Import Base MHeader MEncode SHeader PArith PHeader PEncode MBer SBer PBer
  MInt SInt PCodec PInt MOid SOid POid PTime MText SText PText MReal PFloat SReal PReal PropTime PropReal PDecimal PropDecimal PRound PropReals PropNumber PropNear PNearest.
Local Open Scope Z_scope.

(** A number is held in one way only. *)
Lemma kept_form s k e q f r : bounded 53 1024 k e = true -> -1074 <= f <= e -> q = Z.pos k * 2 ^ (e - f) ->
  q = 0 /\ r = S754_zero s \/ (exists k' ek, f <= ek /\ Z.pos k' * 2 ^ (ek - f) = q /\ canonical_mantissa 53 1024 k' ek = true
                               /\ r = if ek <=? 971 then S754_finite s k' ek else S754_infinity s) -> r = S754_finite s k e.
Proof.
  intros B [F Hf] Eq C. apply bounded_cases in B as [Be B].
  assert (Hk : Z.pos k < 2 ^ 53) by (unfold normal in B; lia). assert (P : 0 < 2 ^ (e - f)) by (apply Z.pow_pos_nonneg; lia).
  destruct C as [[C _]|(k' & e' & Hf' & Eq' & Ca & ->)]; [nia|]. rewrite Eq in Eq'.
  unfold canonical_mantissa in Ca. apply Zeq_bool_eq in Ca. unfold fexp, emin in Ca. pose proof (digits_pos k') as (D0 & D1 & D2).
  assert (Hk' : Z.pos k' < 2 ^ 53) by (assert (2 ^ Z.pos (digits2_pos k') <= 2 ^ 53) by (apply Z.pow_le_mono_r; lia); lia).
  assert (Ee : e' = e).
  { destruct (Z.lt_trichotomy e' e) as [G|[G|G]]; [exfalso|exact G|exfalso].
    - replace (e - f) with (e - e' + (e' - f)) in Eq' by lia. rewrite Z.pow_add_r, Z.mul_assoc in Eq' by lia. apply Z.mul_reg_r in Eq'; [|assert (0 < 2 ^ (e' - f)) by (apply Z.pow_pos_nonneg; lia); lia].
      assert (2 ^ 1 <= 2 ^ (e - e')) by (apply Z.pow_le_mono_r; lia). change (2 ^ 1) with 2 in *. unfold normal in B. change (2 ^ 52) with 4503599627370496 in *. change (2 ^ 53) with 9007199254740992 in *. nia.
    - assert (Dg : Z.pos (digits2_pos k') = 53) by lia. rewrite Dg in D1. change (2 ^ (53 - 1)) with 4503599627370496 in D1.
      replace (e' - f) with (e' - e + (e - f)) in Eq' by lia. rewrite Z.pow_add_r, Z.mul_assoc in Eq' by lia. apply Z.mul_reg_r in Eq'; [|lia].
      assert (2 ^ 1 <= 2 ^ (e' - e)) by (apply Z.pow_le_mono_r; lia). change (2 ^ 1) with 2 in *. change (2 ^ 53) with 9007199254740992 in *. nia. }
  subst e'. apply Z.mul_reg_r in Eq'; [|lia]. replace (e <=? 971) with true by lia. congruence.
Qed.

(** A number that can be kept is kept as it is. *)
Lemma rounded_exact s k e r : bounded 53 1024 k e = true -> rounded s (dy (Z.pos k) e) r -> r = S754_finite s k e.
Proof.
  intros B (q & f & F & Q0 & N & L & U & C). pose proof B as B0. apply bounded_cases in B as [Be B].
  assert (Hk : Z.pos k < 2 ^ 53) by (unfold normal in B; lia).
  assert (Hf : f <= e).
  { destruct L as [-> |L]; [lia|]. destruct (Z_le_gt_dec f e) as [G|G]; [exact G|exfalso].
    replace f with (e + (f - e)) in L by lia. rewrite <- dy_shift in L by lia. apply dy_le in L.
    assert (2 ^ 1 <= 2 ^ (f - e)) by (apply Z.pow_le_mono_r; lia). change (2 ^ 1) with 2 in *. change (2 ^ 52) with 4503599627370496 in *. change (2 ^ 53) with 9007199254740992 in *. nia. }
  set (K := Z.pos k * 2 ^ (e - f)). assert (P : 0 < 2 ^ (e - f)) by (apply Z.pow_pos_nonneg; lia).
  assert (EK : (dy (Z.pos k) e == dy K f)%Q). { unfold K. rewrite dy_shift by lia. replace (f + (e - f)) with e by lia. reflexivity. }
  rewrite EK in N. apply dy_opp_abs in N as [N1 N2]. rewrite <- dy_double in N1, N2.
  assert (Op : (- dy (2 * (q - K)) f == dy (- (2 * (q - K))) f)%Q) by (unfold dy; rewrite inject_Z_opp; ring).
  assert (Op2 : (- (2 * (dy q f - dy K f)) == dy (- (2 * (q - K))) f)%Q) by (rewrite <- Op, dy_double; reflexivity).
  try rewrite Op2 in N2. try rewrite Op in N2. apply dy_le in N1, N2. assert (Eq : q = K) by lia.
  apply (kept_form s k e q f r); [exact B0|lia|exact Eq|exact C].
Qed.

Lemma fmul_kept s k e s' k' e' kr er : bounded 53 1024 k e = true -> bounded 53 1024 k' e' = true -> bounded 53 1024 kr er = true ->
  (dy (Z.pos k) e * dy (Z.pos k') e' == dy (Z.pos kr) er)%Q -> fmul (S754_finite s k e) (S754_finite s' k' e') = S754_finite (xorb s s') kr er.
Proof.
  intros B B' Br E. unfold fmul, SFmul. apply rounded_exact; [exact Br|].
  assert (EX : (dy (Z.pos kr) er == dy (Z.pos (k * k')) (e + e'))%Q).
  { rewrite <- E. unfold dy. rewrite Pos2Z.inj_mul, inject_Z_mult, Qpower_plus by exact two_ne. ring. }
  apply (round_aux_nearest _ _ _ loc_Exact 0 1); [lia| |lia|lia|reflexivity|rewrite EX, Z.mul_1_r, Z.add_0_r; change (inject_Z 1) with 1%Q; ring].
  cbn [Zdigits2]. unfold fexp, emin. apply bounded_cases in B as [_ B]. apply bounded_cases in B' as [_ B'].
  pose proof (digits_pos (k * k')) as (D0 & D1 & D2). set (d := Z.pos (digits2_pos (k * k'))) in *. rewrite Pos2Z.inj_mul in D1, D2.
  assert (2 ^ 52 <= Z.pos k * Z.pos k' -> 53 <= d).
  { intros H. assert (52 < d) by (apply (Z.pow_lt_mono_r_iff 2); lia). lia. }
  unfold normal in *. change (2 ^ 52) with 4503599627370496 in *. destruct B as [[B _]|[_ ->]]; [assert (53 <= d) by (apply H; nia); lia|].
  destruct B' as [[B' _]|[_ ->]]; [assert (53 <= d) by (apply H; nia); lia|lia].
Qed.

(** The powers of ten up to 10^22 are computed exactly. *)
Definition ten_kept (n : Z) : bool :=
  match powi (f64_of_Z 10) n with S754_finite false k e => bounded 53 1024 k e && Qeq_bool (dy (Z.pos k) e) (10 ^ n) | _ => false end.
Lemma powi_ten_kept n : 0 <= n <= 22 -> exists k e, powi (f64_of_Z 10) n = S754_finite false k e /\ bounded 53 1024 k e = true /\ (dy (Z.pos k) e == 10 ^ n)%Q.
Proof.
  intros Hn. assert (T : forallb (fun i => ten_kept (Z.of_nat i)) (seq 0 23) = true) by (vm_compute; reflexivity).
  pose proof (proj1 (forallb_forall _ _) T (Z.to_nat n)) as H. cbv beta in H. rewrite Z2Nat.id in H by lia.
  specialize (H ltac:(apply in_seq; lia)). clear T. unfold ten_kept in H. destruct (powi (f64_of_Z 10) n) as [| | |[|] k e]; try discriminate.
  apply andb_true_iff in H as [B H]. apply Qeq_bool_iff in H. eauto.
Qed.

(** An f64 that is an integer is no multiple of 10^23 with a nonzero factor but those of 2. *)
Lemma tens_of_f64 k e n I x : Z.pos k < 2 ^ 53 -> (dy (Z.pos k) e == inject_Z n)%Q -> n = I * 10 ^ x -> 0 <= x -> x <= 22.
Proof.
  intros Hk E En Hx. destruct (Z_le_gt_dec x 22) as [G|G]; [exact G|exfalso].
  assert (D : (5 ^ 23 | Z.pos k)).
  { assert (Dn : (5 ^ 23 | n)).
    { rewrite En. replace x with (23 + (x - 23)) by lia. rewrite Z.pow_add_r by lia. replace (10 ^ 23) with (2 ^ 23 * 5 ^ 23) by (vm_compute; reflexivity).
      exists (I * 2 ^ 23 * 10 ^ (x - 23)). ring. }
    destruct (Z_le_gt_dec 0 e) as [He|He].
    - assert (Z.pos k * 2 ^ e = n).
      { apply inject_Z_injective. rewrite <- E. unfold dy. rewrite inject_Z_mult, Zpower_Qpower by exact He. reflexivity. }
      rewrite <- H in Dn. rewrite Z.mul_comm in Dn. apply Gauss in Dn; [exact Dn|]. apply rel_prime_sym. 
      replace e with (Z.of_nat (Z.to_nat e)) by lia. clear. induction (Z.to_nat e) as [|m IH]; [apply rel_prime_1|].
      rewrite Nat2Z.inj_succ, Z.pow_succ_r by lia. apply rel_prime_sym, rel_prime_mult; [|apply rel_prime_sym, IH].
      apply Zgcd_1_rel_prime. reflexivity.
    - assert (Z.pos k = n * 2 ^ (- e)).
      { apply inject_Z_injective. rewrite inject_Z_mult, <- E, Zpower_Qpower by lia. change (inject_Z 2) with 2%Q. unfold dy.
        rewrite <- Qmult_assoc, <- Qpower_plus by exact two_ne. rewrite Z.add_opp_diag_r. change (2 ^ 0)%Q with 1%Q. ring. }
      rewrite H. apply Z.divide_mul_l, Dn. }
  apply Z.divide_pos_le in D; [|lia]. assert (E5 : 2 ^ 53 < 5 ^ 23) by (vm_compute; reflexivity). revert Hk D E5. generalize (2 ^ 53), (5 ^ 23). lia.
Qed.

Lemma integer_written_read s k e n : bounded 53 1024 k e = true -> (dy (Z.pos k) e == inject_Z n)%Q ->
  exists r cb r' ko eo, real_new (S754_finite s k e) = Ok r /\ real_write r = Ok (cb, blen cb) /\ (blen cb < 2 ^ 64)%N /\ bytes_ok cb
    /\ read_content cb = Ok r' /\ real_f64 r' = S754_finite s ko eo /\ bounded 53 1024 ko eo = true /\ near (dy (Z.pos ko) eo) (dy (Z.pos k) e) 51.
Proof.
  intros B Hn. destruct (real_new_near s k e B) as (k1 & e1 & x1 & R1 & D1 & P1 & N1' & Hx1 & _ & Ex1). destruct (Ex1 n Hn) as [Hx0 Em].
  destruct (real_new_total s k e B) as (k1' & e1' & x1' & E2 & B1 & F1 & _). rewrite R1 in E2. injection E2 as <- <- <-.
  destruct (written_text s k1 e1 x1 B1 (F1 s) ltac:(lia)) as (V & T & W1 & W2 & W3 & W4 & PV & RV).
  pose proof (whole_close s V k1 e1 PV (RV s)) as [C1 C2]. pose proof (ten_pos x1) as PT.
  pose proof (dy_pos (Z.pos k) e ltac:(lia)) as PX. set (X := dy (Z.pos k) e) in *.
  set (v := (inject_Z V * 10 ^ x1)%Q).
  assert (Ev : (v == inject_Z (V * 10 ^ x1))%Q) by (unfold v; rewrite inject_Z_mult, Zpower_Qpower by lia; reflexivity).
  assert (P10 : 0 < 10 ^ x1) by (apply Z.pow_pos_nonneg; lia).
  assert (V1 : (1 <= v)%Q) by (rewrite Ev; change 1%Q with (inject_Z 1); rewrite <- Zle_Qle; nia).
  assert (C3 : ((X - v) * 2 ^ 53 <= v /\ (v - X) * 2 ^ 53 <= v)%Q).
  { rewrite <- Em. unfold v. split.
    - setoid_replace ((dy (Z.pos k1) e1 * 10 ^ x1 - inject_Z V * 10 ^ x1) * 2 ^ 53)%Q with ((dy (Z.pos k1) e1 - inject_Z V) * 2 ^ 53 * 10 ^ x1)%Q by ring.
      apply Qmult_le_compat_r; [exact C1|apply Qlt_le_weak, PT].
    - setoid_replace ((inject_Z V * 10 ^ x1 - dy (Z.pos k1) e1 * 10 ^ x1) * 2 ^ 53)%Q with ((inject_Z V - dy (Z.pos k1) e1) * 2 ^ 53 * 10 ^ x1)%Q by ring.
      apply Qmult_le_compat_r; [exact C2|apply Qlt_le_weak, PT]. }
  destruct C3 as [A1 A2]. clear C1 C2.
  destruct (round_decimal_nearest s V x1 PV) as (q & f & F & Q0 & N & L & U & C). fold v in N, L, U.
  assert (L' : (dy (2 ^ 52) f <= v)%Q).
  { destruct L as [-> |L]; [exfalso|exact L]. assert (Y : (dy (2 ^ 53) (-1074) <= 1)%Q) by (vm_compute; discriminate). revert U Y V1. generalize (dy (2 ^ 53) (-1074)), v. intros. lra. }
  assert (E52 : (dy (2 ^ 52) f == dy 1 f * (4503599627370496 # 1))%Q) by (unfold dy; change (inject_Z (2 ^ 52)) with (4503599627370496 # 1)%Q; ring).
  rewrite E52 in L'. pose proof (dy_pos 1 f ltac:(lia)) as PU. pose proof N as N'. apply dy_opp_abs in N' as [N2 N3].
  (* what was read is an integer *)
  assert (Int : exists n', (dy q f == inject_Z n')%Q).
  { destruct (Z_le_gt_dec 0 f) as [G|G].
    - exists (q * 2 ^ f). unfold dy. rewrite inject_Z_mult, Zpower_Qpower by exact G. reflexivity.
    - exists (V * 10 ^ x1). set (M := V * 10 ^ x1 * 2 ^ (- f)).
      assert (EM : (v == dy M f)%Q). { unfold M. rewrite dy_shift by lia. rewrite Z.add_opp_diag_r, Ev. unfold dy. change (2 ^ 0)%Q with 1%Q. ring. }
      rewrite EM in N2, N3. rewrite <- dy_double in N2, N3. 
      assert (Op : (- dy (2 * (q - M)) f == dy (- (2 * (q - M))) f)%Q) by (unfold dy; rewrite inject_Z_opp; ring).
      assert (Op2 : (- (2 * (dy q f - dy M f)) == dy (- (2 * (q - M))) f)%Q) by (rewrite <- Op, dy_double; reflexivity).
      try rewrite Op2 in N3. try rewrite Op in N3. apply dy_le in N2, N3. assert (q = M) by lia. subst q. rewrite <- EM, Ev. reflexivity. }
  destruct Int as [n' Hn'].
  destruct C as [[C _]|(kf & ef & Hf & Eqf & Cf & C)].
  { exfalso. subst q. assert (Z0 : (dy 0 f == 0)%Q) by (unfold dy; ring). rewrite Z0 in *. clear - N2 N3 L' PU. revert N2 N3 L' PU. generalize v, (dy 1 f). intros. lra. }
  assert (Df : (dy (Z.pos kf) ef == dy q f)%Q). { rewrite <- Eqf, dy_shift by lia. replace (f + (ef - f)) with ef by lia. reflexivity. }
  assert (Le : ef <= 971).
  { destruct (Z_le_gt_dec ef 971) as [G|Le]; [exact G|exfalso].
    destruct (real_new_total s k e B) as (? & ? & ? & Rt & _). 
    replace (ef <=? 971) with false in C by lia.
    (* X is at most (2^53 - 1) 2^971 *)
    assert (Hk : 2 ^ 52 <= Z.pos kf).
    { unfold canonical_mantissa in Cf. apply Zeq_bool_eq in Cf. unfold fexp, emin in Cf. pose proof (digits_pos kf) as (_ & D3 & _).
      assert (G : Z.pos (digits2_pos kf) = 53) by lia. rewrite G in D3. exact D3. }
    assert (Big : (dy (2 ^ 53) 971 <= dy q f)%Q).
    { rewrite <- Df. apply Qle_trans with (dy (2 ^ 52) ef); [|apply dy_le; exact Hk].
      change (2 ^ 53) with (2 ^ 52 * 2 ^ 1). rewrite dy_shift by lia. replace ef with (971 + 1 + (ef - 971 - 1)) by lia. rewrite <- (dy_shift (2 ^ 52) _ (ef - 971 - 1)) by lia.
      apply dy_le. assert (0 < 2 ^ (ef - 971 - 1)) by (apply Z.pow_pos_nonneg; lia). nia. }
    assert (D971 : forall z, (dy z 971 == inject_Z z * dy 1 971)%Q) by (intros; unfold dy; change (inject_Z 1) with 1%Q; ring).
    rewrite D971 in Big. change (inject_Z (2 ^ 53)) with (9007199254740992 # 1)%Q in Big. pose proof (dy_pos 1 971 ltac:(lia)) as PH.
    set (h := dy 1 971) in *. change (2 ^ 53)%Q with (9007199254740992 # 1)%Q in *.
    assert (Mb : ((9007199254740990 # 1) * h < X)%Q).
    { clear - Big PH N2 N3 L' A1 A2 V1 PU. revert Big PH N2 N3 L' A1 A2 V1 PU. generalize (dy q f), h, (dy 1 f), v, X. intros. lra. }
    apply bounded_cases in B as [Be B]. assert (Hk53 : Z.pos k < 2 ^ 53) by (unfold normal in B; lia).
    assert (He : e = 971).
    { destruct (Z.eq_dec e 971) as [G|G]; [exact G|exfalso]. 
      assert (H : (X <= dy (2 ^ 52) 971)%Q).
      { apply Qle_trans with (dy (2 ^ 53) e); [apply dy_le; lia|]. change (2 ^ 53) with (2 ^ 52 * 2 ^ 1). rewrite dy_shift by lia.
        replace 971 with (e + 1 + (970 - e)) by lia. rewrite <- (dy_shift (2 ^ 52) _ (970 - e)) by lia. apply dy_le.
        assert (0 < 2 ^ (970 - e)) by (apply Z.pow_pos_nonneg; lia). nia. }
      rewrite D971 in H. change (inject_Z (2 ^ 52)) with (4503599627370496 # 1)%Q in H. clear - H Mb PH. revert H Mb PH. generalize h, X. intros. lra. }
    subst e. assert (Ei : (X == inject_Z (Z.pos k * 2 ^ 971))%Q) by (unfold X, dy; rewrite inject_Z_mult, Zpower_Qpower by lia; reflexivity).
    assert (Kk : Z.pos k = 2 ^ 53 - 1).
    { assert (G : ((9007199254740990 # 1) * h < inject_Z (Z.pos k) * h)%Q) by (rewrite <- D971; exact Mb).
      apply -> (Qmult_lt_r (9007199254740990 # 1) (inject_Z (Z.pos k)) h PH) in G. assert (G2 : 9007199254740990 < Z.pos k) by (rewrite Zlt_Qlt; exact G).
      change (2 ^ 53) with 9007199254740992 in *. lia. }
    destruct (Z.eq_dec x1 0) as [-> |Hx1'].
    { rewrite RV in C. discriminate. }
    assert (Im : int_of k1 e1 * 10 ^ x1 = Z.pos k * 2 ^ 971).
    { apply inject_Z_injective. rewrite inject_Z_mult, Zpower_Qpower by lia. change (inject_Z 10) with 10%Q. rewrite <- D1, <- Ei. exact Em. }
    rewrite Kk in Im. assert (Md : ((2 ^ 53 - 1) * 2 ^ 971) mod 5 <> 0) by (vm_compute; discriminate).
    apply Md. rewrite <- Im. replace x1 with (1 + (x1 - 1)) by lia. rewrite Z.pow_add_r by lia.
    replace (int_of k1 e1 * (10 ^ 1 * 10 ^ (x1 - 1))) with (int_of k1 e1 * 2 * 10 ^ (x1 - 1) * 5) by ring. apply Z.mod_mul. lia. }
  replace (ef <=? 971) with true in C by lia. pose proof (round_decimal_ok s V x1) as BF. rewrite C in BF. cbn [f64_ok] in BF.
  destruct (real_new_near s kf ef BF) as (k2 & e2 & x2 & R2 & D2 & P2 & _ & Hx2 & _ & Ex2).
  destruct (Ex2 n' ltac:(rewrite Df; exact Hn')) as [Hx2' Em2].
  destruct (real_new_total s kf ef BF) as (k2' & e2' & x2' & E3 & B2 & F2 & _). rewrite R2 in E3. injection E3 as <- <- <-.
  assert (X22 : x2 <= 22).
  { apply (tens_of_f64 kf ef n' (int_of k2 e2)); [|rewrite Df; exact Hn'| |exact Hx2'].
    - apply bounded_cases in BF as [_ BF]. unfold normal in BF. lia.
    - apply inject_Z_injective. rewrite <- Hn', <- Df, <- Em2, D2, inject_Z_mult, Zpower_Qpower by lia. reflexivity. }
  destruct (powi_ten_kept x2 ltac:(lia)) as (kp & ep & RP & BP & Ep).
  exists (RBinary (S754_finite s k1 e1) 10 x1 10), (3%N :: T), (RBinary (S754_finite s k2 e2) 10 x2 10), kf, ef.
  split; [exact R1|]. split; [exact W1|]. split; [exact W2|]. split; [exact W3|]. split; [rewrite W4, C; exact R2|].
  split. { cbn [real_f64]. change (Z.of_N 10) with 10. rewrite RP, (fmul_kept s k2 e2 false kp ep kf ef B2 BP BF); [now rewrite xorb_false_r|]. rewrite Ep. exact Em2. }
  split; [exact BF|]. change (2 ^ 53)%Q with (9007199254740992 # 1)%Q in *.
  assert (Df' := Df). revert Df'. set (y := dy (Z.pos kf) ef). intros Dy. rewrite <- Dy in N2, N3.
  clear - N2 N3 L' PU A1 A2 V1 PX. revert N2 N3 L' PU A1 A2 V1 PX. generalize y, (dy 1 f), v, X. intros.
  apply near_intro; change (2 ^ 51)%Q with (2251799813685248 # 1)%Q; lra.
Qed.

(** What is written reads back, with every parser and whatever follows, as a number within [q] 2^-51 of the number [q] of [x]. *)
Theorem C55_integers_near (x : f64) (q : Q) (n : Z) : valid_binary 53 1024 x = true -> f64_value x = Some q -> (q == inject_Z n)%Q -> n <> 0 ->
  exists enc x' q', to_vec (tober_f64 x) = Ok enc /\ bytes_ok enc /\ valid_binary 53 1024 x' = true /\ f64_value x' = Some q'
    /\ (Qabs (q' - q) * 2 ^ 51 <= Qabs q)%Q /\ forall y, bytes_ok y -> all_read f64_codec (enc ++ y) y x'.
Proof.
  intros Vx Q Hn Nz. destruct x as [s|s| |s k e]; try discriminate.
  { injection Q as <-. exfalso. apply Nz. symmetry. apply inject_Z_injective. exact Hn. }
  cbn [valid_binary] in Vx. cbn [f64_value] in Q. injection Q as <-.
  assert (Sg : forall (p : positive) z, (inject_Z (if s then Z.neg p else Z.pos p) * 2 ^ z == (if s then - (1) else 1) * dy (Z.pos p) z)%Q).
  { intros p z. unfold dy. destruct s; [|ring]. change (Z.neg p) with (- Z.pos p). rewrite inject_Z_opp. ring. }
  assert (Ab : (Qabs (inject_Z (if s then Z.neg k else Z.pos k) * 2 ^ e) == dy (Z.pos k) e)%Q).
  { rewrite Sg, Qabs_Qmult, (Qabs_pos (dy _ _)) by (apply Qlt_le_weak, dy_pos; lia). destruct s; [change (Qabs (- (1)))%Q with 1%Q|change (Qabs 1)%Q with 1%Q]; ring. }
  destruct (integer_written_read s k e (if s then - n else n) Vx) as (r & cb & r' & ko & eo & R1 & W1 & W2 & W3 & W4 & W5 & BO & N7).
  { rewrite Sg in Hn. destruct s; [rewrite inject_Z_opp, <- Hn; ring|rewrite <- Hn; ring]. }
  destruct (written_real _ _ W1 W2 W3) as (enc & En & Oe & Se).
  exists enc, (S754_finite s ko eo), (inject_Z (if s then Z.neg ko else Z.pos ko) * 2 ^ eo)%Q.
  split; [unfold tober_f64; rewrite R1; exact En|]. split; [exact Oe|]. split; [exact BO|]. split; [reflexivity|]. split.
  - rewrite Ab. setoid_replace (inject_Z (if s then Z.neg ko else Z.pos ko) * 2 ^ eo - inject_Z (if s then Z.neg k else Z.pos k) * 2 ^ e)%Q
      with ((if s then - (1) else 1) * (dy (Z.pos ko) eo - dy (Z.pos k) e))%Q by (rewrite !Sg; ring).
    rewrite Qabs_Qmult. assert (S1 : (Qabs (if s then - (1) else 1) == 1)%Q) by (destruct s; reflexivity). rewrite S1, Qmult_1_l. exact N7.
  - intros y Hy. eapply f64_all_read; [|apply Se | exact W4 | exact W5]. apply bytes_ok_app. split; assumption.
Qed.
Print Assumptions C55_integers_near.

(** Every number of at least 2^-960. *)
Theorem C55_near_above (x : f64) (q : Q) : valid_binary 53 1024 x = true -> f64_value x = Some q -> (2 ^ (-960) <= Qabs q)%Q -> f64_survives_near x q.
Proof.
  intros Vx Q Lo. destruct (Qlt_le_dec (2 ^ 1022) (Qabs q)) as [Hi|Hi]; [|apply C55_near; assumption].
  destruct x as [s|s| |s k e]; try discriminate.
  { injection Q as <-. exfalso. revert Hi. vm_compute. discriminate. }
  pose proof Vx as B. cbn [valid_binary] in B. pose proof Q as Q'. cbn [f64_value] in Q'. injection Q' as Q'.
  assert (Ab : (Qabs q == dy (Z.pos k) e)%Q).
  { rewrite <- Q'. unfold dy. rewrite Qabs_Qmult, (Qabs_pos (2 ^ e)) by (apply Qlt_le_weak, two_pos). destruct s; reflexivity. }
  assert (He : 0 <= e).
  { destruct (Z_le_gt_dec 0 e) as [G|G]; [exact G|exfalso]. apply bounded_cases in B as [_ B]. assert (Hk : Z.pos k < 2 ^ 53) by (unfold normal in B; lia).
    assert (H : (dy (Z.pos k) e <= dy (2 ^ 53) 0)%Q).
    { assert (Ez : (dy (2 ^ 53) 0 == dy (2 ^ 53 * 2 ^ (- e)) e)%Q) by (rewrite dy_shift, Z.add_opp_diag_r by lia; reflexivity).
      rewrite Ez. apply dy_le. assert (0 < 2 ^ (- e)) by (apply Z.pow_pos_nonneg; lia). nia. }
    assert (H2 : (dy (2 ^ 53) 0 <= 2 ^ 1022)%Q) by (vm_compute; discriminate). rewrite Ab in Hi. revert H H2 Hi. generalize (dy (2 ^ 53) 0), (2 ^ 1022)%Q, (dy (Z.pos k) e). intros. lra. }
  assert (P : 0 < 2 ^ e) by (apply Z.pow_pos_nonneg; lia).
  destruct (C55_integers_near _ q ((if s then Z.neg k else Z.pos k) * 2 ^ e) Vx Q) as (enc & x' & q' & E1 & E2 & E3 & E4 & E5 & E6).
  - rewrite <- Q', inject_Z_mult, Zpower_Qpower by exact He. reflexivity.
  - destruct s; nia.
  - exists enc, x', q'. repeat (split; [assumption|]). split; [|exact E6].
    change (2 ^ 51)%Q with (2251799813685248 # 1)%Q in E5. change (2 ^ 41)%Q with (2199023255552 # 1)%Q. pose proof (Qabs_nonneg (q' - q)) as PA.
    revert E5 PA. generalize (Qabs (q' - q)), (Qabs q). intros. lra.
Qed.
Print Assumptions C55_near_above.

(** 5655913580055390 times 2^23 is written as 4744524190496128000000E1 and comes back as the number before it; minus the largest number survives. *)
Example C55_integers_near_case :
  let x := S754_finite false 5655913580055390 23 in valid_binary 53 1024 x = true /\ f64_value x = Some (inject_Z 5655913580055390 * 2 ^ 23)%Q
  /\ (inject_Z 5655913580055390 * 2 ^ 23 == inject_Z (5655913580055390 * 2 ^ 23))%Q
  /\ (let* e := to_vec (tober_f64 x) in from_der f64_codec e) = Ok ([], S754_finite false 5655913580055389 23)
  /\ (let m := S754_finite true 9007199254740991 971 in (let* e := to_vec (tober_f64 m) in from_ber f64_codec e) = Ok ([], m)
       /\ f64_value m = Some (inject_Z (-9007199254740991) * 2 ^ 971)%Q /\ (2 ^ 1022 < Qabs (inject_Z (-9007199254740991) * 2 ^ 971))%Q).
Proof.
  cbv zeta. split; [vm_compute; reflexivity|]. split; [vm_compute; reflexivity|]. split; [vm_compute; reflexivity|]. split; [vm_compute; reflexivity|].
  split; [vm_compute; reflexivity|]. split; [vm_compute; reflexivity|]. vm_compute. reflexivity.
Qed.

(** ** Small numbers *)

(** The product of two numbers of 53 bits, when it is at least a quarter of the smallest normal number. *)
Lemma fmul_close_low s k e s' k' e' : bounded 53 1024 k e = true -> bounded 53 1024 k' e' = true ->
  let X := (dy (Z.pos k) e * dy (Z.pos k') e')%Q in (dy 1 (-1024) <= X)%Q -> (X < dy 1 1000)%Q ->
  exists m em, fmul (S754_finite s k e) (S754_finite s' k' e') = S754_finite (xorb s s') m em /\ bounded 53 1024 m em = true /\ near (dy (Z.pos m) em) X 50.
Proof.
  intros B B' X Lo Hi. assert (R : rounded (xorb s s') X (fmul (S754_finite s k e) (S754_finite s' k' e'))).
  { unfold fmul, SFmul. assert (EX : (X == dy (Z.pos (k * k')) (e + e'))%Q).
    { unfold X, dy. rewrite Pos2Z.inj_mul, inject_Z_mult, Qpower_plus by exact two_ne. ring. }
    apply (round_aux_nearest _ _ _ loc_Exact 0 1); [lia| |lia|lia|reflexivity|rewrite EX, Z.mul_1_r, Z.add_0_r; change (inject_Z 1) with 1%Q; ring].
    cbn [Zdigits2]. unfold fexp, emin. apply bounded_cases in B as [_ B]. apply bounded_cases in B' as [_ B'].
    pose proof (digits_pos (k * k')) as (D0 & D1 & D2). set (d := Z.pos (digits2_pos (k * k'))) in *. rewrite Pos2Z.inj_mul in D1, D2.
    assert (2 ^ 52 <= Z.pos k * Z.pos k' -> 53 <= d).
    { intros H. assert (52 < d) by (apply (Z.pow_lt_mono_r_iff 2); lia). lia. }
    unfold normal in *. change (2 ^ 52) with 4503599627370496 in *. destruct B as [[B _]|[_ ->]]; [assert (53 <= d) by (apply H; nia); lia|].
    destruct B' as [[B' _]|[_ ->]]; [assert (53 <= d) by (apply H; nia); lia|lia]. }
  destruct R as (q & f & F & Q0 & N & L & U & C). apply dy_opp_abs in N as [N1 N2].
  assert (Un : (dy 1 f * (2 ^ 50) <= X)%Q).
  { change (2 ^ 50)%Q with (1125899906842624 # 1)%Q. destruct L as [-> |L].
    - assert (G : (dy 1 (-1024) == dy 1 (-1074) * (1125899906842624 # 1))%Q) by (vm_compute; reflexivity). rewrite <- G. exact Lo.
    - assert (G : (dy (2 ^ 52) f == dy 1 f * (4503599627370496 # 1))%Q) by (unfold dy; change (inject_Z (2 ^ 52)) with (4503599627370496 # 1)%Q; ring).
      rewrite G in L. pose proof (dy_pos 1 f ltac:(lia)) as P. revert L P. generalize (dy 1 f). intros. lra. }
  pose proof (dy_pos 1 f ltac:(lia)) as P. change (2 ^ 50)%Q with (1125899906842624 # 1)%Q in Un.
  destruct C as [[-> C]|(m & em & Hf & Eq & Ca & C)].
  { exfalso. assert (Z0 : (dy 0 f == 0)%Q) by (unfold dy; ring). rewrite Z0 in *. revert N2 Un P. generalize (dy 1 f). intros. lra. }
  assert (Df : (dy (Z.pos m) em == dy q f)%Q). { rewrite <- Eq, dy_shift by lia. replace (f + (em - f)) with em by lia. reflexivity. }
  destruct (Z.leb_spec em 971) as [Le|Le].
  - exists m, em. split; [exact C|]. split; [unfold bounded; rewrite Ca; cbn [andb]; change (1024 - 53) with 971; lia|]. apply near_intro; rewrite Df; change (2 ^ 50)%Q with (1125899906842624 # 1)%Q;
      revert N1 N2 Un P; generalize (dy q f), (dy 1 f), X; intros; lra.
  - exfalso. assert (G : (dy 1 971 <= dy (Z.pos m) em)%Q).
    { replace em with (971 + (em - 971)) by lia. rewrite <- dy_shift by lia. apply dy_le. assert (0 < 2 ^ (em - 971)) by (apply Z.pow_pos_nonneg; lia). nia. }
    unfold canonical_mantissa in Ca. apply Zeq_bool_eq in Ca. unfold fexp, emin in Ca. pose proof (digits_pos m) as (_ & D3 & _).
    assert (Gd : Z.pos (digits2_pos m) = 53) by lia. rewrite Gd in D3.
    assert (G2 : (dy (2 ^ 52) 972 <= dy (Z.pos m) em)%Q).
    { replace em with (972 + (em - 972)) by lia. rewrite <- dy_shift by lia. apply dy_le. assert (0 < 2 ^ (em - 972)) by (apply Z.pow_pos_nonneg; lia). change (53 - 1) with 52 in D3. nia. }
    rewrite Df in G2. assert (G3 : (dy 1 1000 * 4 <= dy (2 ^ 52) 972)%Q) by (vm_compute; discriminate). pose proof (dy_pos 1 1000 ltac:(lia)) as P3.
    revert N1 N2 Un P G2 G3 Hi P3. generalize (dy q f), (dy 1 f), X, (dy 1 1000), (dy (2 ^ 52) 972). intros. lra.
Qed.

(** From 10^309 the powers are infinite, and so those from 10^-309 down are 0. *)
Lemma powi_ten_zero n : -399 <= n <= -309 -> powi (f64_of_Z 10) n = S754_zero false.
Proof.
  intros Hn. assert (T : forallb (fun i => match powi (f64_of_Z 10) (- Z.of_nat i) with S754_zero false => true | _ => false end) (seq 309 91) = true) by (vm_compute; reflexivity).
  pose proof (proj1 (forallb_forall _ _) T (Z.to_nat (- n))) as H. clear T. cbv beta in H. rewrite Z2Nat.id, Z.opp_involutive in H by lia.
  specialize (H ltac:(apply in_seq; lia)). destruct (powi (f64_of_Z 10) n) as [[|]| | |]; try discriminate. reflexivity.
Qed.
Lemma powi_ten_low n : -308 <= n <= 0 -> exists k e, powi (f64_of_Z 10) n = S754_finite false k e /\ bounded 53 1024 k e = true /\ near (dy (Z.pos k) e) (10 ^ n) 44.
Proof.
  intros Hn. destruct (Z.eq_dec n (-308)) as [-> |Ne]; [|apply powi_ten_near; lia].
  exists 2024022533073105%positive, (-1074). split; [vm_compute; reflexivity|]. split; [vm_compute; reflexivity|]. apply near_intro; vm_compute; discriminate.
Qed.

Lemma small_written_read s k e : bounded 53 1024 k e = true -> (dy (Z.pos k) e < 1)%Q ->
  exists r cb r', real_new (S754_finite s k e) = Ok r /\ real_write r = Ok (cb, blen cb) /\ (blen cb < 2 ^ 64)%N /\ bytes_ok cb
    /\ read_content cb = Ok r'
    /\ ((exists ko eo, real_f64 r' = S754_finite s ko eo /\ bounded 53 1024 ko eo = true /\ near (dy (Z.pos ko) eo) (dy (Z.pos k) e) 40 /\ (2 ^ (-1024) < dy (Z.pos k) e)%Q)
        \/ real_f64 r' = S754_zero s).
Proof.
  intros B Hi. destruct (real_new_near s k e B) as (k1 & e1 & x1 & R1 & D1 & P1 & _ & Hx1 & N1 & _). change (near (dy (Z.pos k1) e1 * 10 ^ x1) (dy (Z.pos k) e) 43) in N1.
  destruct (real_new_total s k e B) as (k1' & e1' & x1' & E2 & B1 & F1 & _). rewrite R1 in E2. injection E2 as <- <- <-.
  destruct (written_text s k1 e1 x1 B1 (F1 s) ltac:(lia)) as (V & T & W1 & W2 & W3 & W4 & PV & RV).
  assert (Tot : exists r', real_new (round_decimal s V x1) = Ok r').
  { pose proof (round_decimal_ok s V x1) as G. destruct (round_decimal s V x1) as [t|t| |t kf ef]; [|destruct t| |]; try (eexists; reflexivity).
    cbn [f64_ok] in G. destruct (real_new_total t kf ef G) as (? & ? & ? & Rt & _). rewrite Rt. eauto. }
  destruct Tot as [r' R']. destruct (rewritten_near s k e k1 e1 x1 V r' B R1 PV RV R') as (k2 & e2 & x2 & -> & N2).
  assert (G2 : bounded 53 1024 k2 e2 = true /\ (dy (Z.pos k2) e2 == inject_Z (int_of k2 e2))%Q /\ 0 < int_of k2 e2 /\ -399 <= x2 <= 399).
  { pose proof (round_decimal_ok s V x1) as G. destruct (round_decimal s V x1) as [t|t| |t kf ef]; [discriminate|destruct t; discriminate|discriminate|].
    cbn [f64_ok] in G. destruct (real_new_near t kf ef G) as (k3 & e3 & x3 & R3 & D3 & P3 & _ & Hx3 & _).
    destruct (real_new_total t kf ef G) as (k4 & e4 & x4 & R4 & B4 & _). rewrite R' in R3, R4. injection R3 as <- <- <- <-. injection R4 as <- <- <-. auto. }
  destruct G2 as (B2 & D2 & P2 & Hx2).
  exists (RBinary (S754_finite s k1 e1) 10 x1 10), (3%N :: T), (RBinary (S754_finite s k2 e2) 10 x2 10).
  split; [exact R1|]. split; [exact W1|]. split; [exact W2|]. split; [exact W3|]. split; [rewrite W4; exact R'|].
  cbn [real_f64]. change (Z.of_N 10) with 10.
  pose proof (dy_pos (Z.pos k) e ltac:(lia)) as PX. set (X := dy (Z.pos k) e) in *. set (m := (dy (Z.pos k1) e1 * 10 ^ x1)%Q) in *.
  set (d := (dy (Z.pos k2) e2 * 10 ^ x2)%Q) in *.
  apply near_bounds in N1 as [A1 A2], N2 as [A3 A4]. change (2 ^ 43)%Q with (8796093022208 # 1)%Q in *. change (2 ^ 41)%Q with (2199023255552 # 1)%Q in *.
  assert (I2 : (1 <= dy (Z.pos k2) e2)%Q) by (rewrite D2; change 1%Q with (inject_Z 1); rewrite <- Zle_Qle; lia).
  assert (X2 : x2 <= 0).
  { destruct (Z_le_gt_dec x2 0) as [G|G]; [exact G|exfalso].
    assert (T10 : (10 <= 10 ^ x2)%Q). { rewrite <- (Zpower_Qpower 10) by lia. change 10%Q with (inject_Z (10 ^ 1)). rewrite <- Zle_Qle. apply Z.pow_le_mono_r; lia. }
    assert (Hd : (10 <= d)%Q).
    { unfold d. setoid_replace 10%Q with (1 * 10)%Q by ring. apply Qmult_le_compat_nonneg; (split; [discriminate|assumption]). }
    revert A1 A2 A3 A4 Hd Hi PX. generalize d, m, X. intros. lra. }
  destruct (Z_le_gt_dec x2 (-309)) as [Z2|Z2].
  { right. rewrite powi_ten_zero by lia. cbn. now rewrite xorb_false_r. }
  left. destruct (powi_ten_low x2 ltac:(lia)) as (kp & ep & RP & BP & N5).
  assert (Pk2 : (0 < dy (Z.pos k2) e2)%Q) by (apply dy_pos; lia). apply (near_scale_left _ _ _ (dy (Z.pos k2) e2) Pk2) in N5. fold d in N5.
  apply near_bounds in N5 as [A5 A6]. change (2 ^ 44)%Q with (17592186044416 # 1)%Q in *. set (y := (dy (Z.pos k2) e2 * dy (Z.pos kp) ep)%Q) in *.
  assert (Ld : (10 ^ (-308) <= d)%Q).
  { unfold d. setoid_replace (10 ^ (-308))%Q with (1 * 10 ^ (-308))%Q by ring. apply Qmult_le_compat_nonneg; [split; [discriminate|exact I2]|].
    split; [apply Qlt_le_weak, ten_pos|]. replace x2 with (-308 + (x2 + 308)) by lia. rewrite Qpower_plus by discriminate.
    setoid_replace (10 ^ (-308))%Q with (10 ^ (-308) * 1)%Q at 1 by ring. apply Qmult_le_l; [apply ten_pos|].
    rewrite <- (Zpower_Qpower 10) by lia. change 1%Q with (inject_Z 1). rewrite <- Zle_Qle. assert (0 < 10 ^ (x2 + 308)) by (apply Z.pow_pos_nonneg; lia). lia. }
  assert (L24 : (dy 1 (-1024) * (3 # 2) <= 10 ^ (-308))%Q) by (vm_compute; discriminate).
  assert (H1000 : (4 <= dy 1 1000)%Q) by (vm_compute; discriminate).
  pose proof (dy_pos 1 (-1024) ltac:(lia)) as P24.
  destruct (fmul_close_low s k2 e2 false kp ep B2 BP) as (ko & eo & RO & BO & N6).
  { fold y. revert A1 A2 A3 A4 A5 A6 Ld L24 PX P24. generalize (dy 1 (-1024)), (10 ^ (-308))%Q, d, m, X, y. intros. lra. }
  { fold y. revert A1 A2 A3 A4 A5 A6 Hi PX H1000. generalize (dy 1 1000), d, m, X, y. intros. lra. }
  fold y in N6. exists ko, eo. rewrite xorb_false_r in RO. split; [rewrite RP; exact RO|]. split; [exact BO|].
  apply near_bounds in N6 as [A7 A8]. change (2 ^ 50)%Q with (1125899906842624 # 1)%Q in *. split.
  - revert A1 A2 A3 A4 A5 A6 A7 A8 PX. generalize (dy (Z.pos ko) eo), d, m, X, y. intros. apply near_intro; change (2 ^ 40)%Q with (1099511627776 # 1)%Q; lra.
  - assert (O : (dy 1 (-1024) == 2 ^ (-1024))%Q) by (unfold dy; ring). rewrite <- O.
    revert A1 A2 A3 A4 Ld L24 PX P24. generalize (dy 1 (-1024)), (10 ^ (-308))%Q, d, m, X. intros. lra.
Qed.

(** A number below 1 comes back within a relative 2^-40 or as the zero of its sign, and up to 2^-1024 always as the zero. *)
Theorem C55_small (x : f64) (q : Q) : valid_binary 53 1024 x = true -> f64_value x = Some q -> (0 < Qabs q)%Q -> (Qabs q < 1)%Q ->
  exists enc x' q', to_vec (tober_f64 x) = Ok enc /\ bytes_ok enc /\ valid_binary 53 1024 x' = true /\ f64_value x' = Some q'
    /\ ((Qabs (q' - q) * 2 ^ 40 <= Qabs q)%Q \/ x' = S754_zero (if Qlt_le_dec q 0 then true else false))
    /\ ((Qabs q <= 2 ^ (-1024))%Q -> x' = S754_zero (if Qlt_le_dec q 0 then true else false))
    /\ forall y, bytes_ok y -> all_read f64_codec (enc ++ y) y x'.
Proof.
  intros Vx Q Lo Hi. destruct x as [s|s| |s k e]; try discriminate.
  { injection Q as <-. exfalso. revert Lo. vm_compute. discriminate. }
  cbn [valid_binary] in Vx. cbn [f64_value] in Q. injection Q as <-.
  assert (Sg : forall (p : positive) z, (inject_Z (if s then Z.neg p else Z.pos p) * 2 ^ z == (if s then - (1) else 1) * dy (Z.pos p) z)%Q).
  { intros p z. unfold dy. destruct s; [|ring]. change (Z.neg p) with (- Z.pos p). rewrite inject_Z_opp. ring. }
  assert (Ab : (Qabs (inject_Z (if s then Z.neg k else Z.pos k) * 2 ^ e) == dy (Z.pos k) e)%Q).
  { rewrite Sg, Qabs_Qmult, (Qabs_pos (dy _ _)) by (apply Qlt_le_weak, dy_pos; lia). destruct s; [change (Qabs (- (1)))%Q with 1%Q|change (Qabs 1)%Q with 1%Q]; ring. }
  assert (Sn : (if Qlt_le_dec (inject_Z (if s then Z.neg k else Z.pos k) * 2 ^ e) 0 then true else false) = s).
  { pose proof (dy_pos (Z.pos k) e ltac:(lia)) as P. pose proof (Sg k e) as G. revert G. generalize (inject_Z (if s then Z.neg k else Z.pos k) * 2 ^ e)%Q. intros z G.
    revert P G. generalize (dy (Z.pos k) e). intros w P G. destruct (Qlt_le_dec z 0) as [H|H]; destruct s; try reflexivity; exfalso; lra. }
  rewrite Sn. rewrite Ab in Hi.
  destruct (small_written_read s k e Vx Hi) as (r & cb & r' & R1 & W1 & W2 & W3 & W4 & W5).
  destruct (written_real _ _ W1 W2 W3) as (enc & En & Oe & Se). exists enc.
  destruct W5 as [(ko & eo & W5 & BO & N7 & G)|W5].
  - exists (S754_finite s ko eo), (inject_Z (if s then Z.neg ko else Z.pos ko) * 2 ^ eo)%Q.
    split; [unfold tober_f64; rewrite R1; exact En|]. split; [exact Oe|]. split; [exact BO|]. split; [reflexivity|]. split; [left|split].
    + rewrite Ab. setoid_replace (inject_Z (if s then Z.neg ko else Z.pos ko) * 2 ^ eo - inject_Z (if s then Z.neg k else Z.pos k) * 2 ^ e)%Q
        with ((if s then - (1) else 1) * (dy (Z.pos ko) eo - dy (Z.pos k) e))%Q by (rewrite !Sg; ring).
      rewrite Qabs_Qmult. assert (S1 : (Qabs (if s then - (1) else 1) == 1)%Q) by (destruct s; reflexivity). rewrite S1, Qmult_1_l. exact N7.
    + rewrite Ab. intros H. exfalso. revert H G. generalize (dy (Z.pos k) e), (2 ^ (-1024))%Q. intros. lra.
    + intros y Hy. eapply f64_all_read; [|apply Se | exact W4 | exact W5]. apply bytes_ok_app. split; assumption.
  - exists (S754_zero s), 0%Q. split; [unfold tober_f64; rewrite R1; exact En|]. split; [exact Oe|]. split; [reflexivity|]. split; [reflexivity|].
    split; [right; reflexivity|]. split; [reflexivity|].
    intros y Hy. eapply f64_all_read; [|apply Se | exact W4 | exact W5]. apply bytes_ok_app. split; assumption.
Qed.
Print Assumptions C55_small.

(** 1e-290, which is below 2^-960, comes back changed by 10 in its last place; -1.2345678901234567e-300 and the smallest number come back as zeros. *)
Example C55_small_case :
  let x := S754_finite false 7022238808055922 (-1016) in let z := S754_finite true 7446984136755464 (-1049) in let t := S754_finite false 1 (-1074) in
  valid_binary 53 1024 x = true /\ valid_binary 53 1024 z = true /\ valid_binary 53 1024 t = true
  /\ (let* e := to_vec (tober_f64 x) in from_der f64_codec e) = Ok ([], S754_finite false 7022238808055912 (-1016))
  /\ (let* e := to_vec (tober_f64 z) in from_ber f64_codec e) = Ok ([], S754_zero true)
  /\ (let* e := to_vec (tober_f64 t) in from_der f64_codec e) = Ok ([], S754_zero false)
  /\ (2 ^ (-1024) < Qabs (inject_Z (-7446984136755464) * 2 ^ (-1049)))%Q /\ (Qabs (inject_Z 1 * 2 ^ (-1074)) <= 2 ^ (-1024))%Q.
Proof.
  cbv zeta. split; [vm_compute; reflexivity|]. split; [vm_compute; reflexivity|]. split; [vm_compute; reflexivity|]. split; [vm_compute; reflexivity|].
  split; [vm_compute; reflexivity|]. split; [vm_compute; reflexivity|]. split; vm_compute; [reflexivity|discriminate].
Qed.
