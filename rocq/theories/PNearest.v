(** The number a decimal text stands for, rounded: the nearest, over the whole range. *)
From Coq Require Import SpecFloat QArith Qpower Qabs Lqa.
From Verif Require Import Base PArith PHeader MReal PFloat SReal PReal PRound PropReals PropNumber PropNear.
Local Open Scope Z_scope.

(** [R] of [b] parts of the last digit lie where [l] says. *)
Definition located (l : location) (R b : Z) : Prop :=
  match l with
  | loc_Exact => R = 0
  | loc_Inexact Lt => 0 < 2 * R < b
  | loc_Inexact Eq => 2 * R = b
  | loc_Inexact Gt => b < 2 * R < 2 * b
  end.

Lemma quarter_nearest q P m l R b : 0 < b -> 0 <= R < b -> located l R b ->
  2 * Z.abs (4 * (q * P) - (4 * m + quarter l)) <= 4 * P -> 2 * Z.abs (q * P * b - (m * b + R)) <= P * b.
Proof.
  intros Hb HR HL H. replace (q * P * b - (m * b + R)) with ((q * P - m) * b - R) by ring.
  replace (4 * (q * P) - (4 * m + quarter l)) with (4 * (q * P - m) - quarter l) in H by ring.
  set (D := q * P - m) in *. clearbody D.
  assert (G : - (P * b) <= 2 * (D * b) - 2 * R <= P * b); [|lia].
  destruct l as [|[]]; cbn [located quarter] in *.
  - assert (- P <= 2 * D <= P) by lia. nia.
  - assert (1 - P <= 2 * D <= P + 1) by lia. nia.
  - assert (1 - P <= 2 * D <= P) by lia. nia.
  - assert (2 - P <= 2 * D <= P + 1) by lia. nia.
Qed.

Lemma div_located a b : let '(q, e, l) := SFdiv_core_binary 53 1024 (Z.pos a) 0 (Z.pos b) 0 in
  exists R, Z.pos a * 2 ^ (- e) = q * Z.pos b + R /\ 0 <= R < Z.pos b /\ located l R (Z.pos b).
Proof.
  unfold SFdiv_core_binary. cbn [Zdigits2].
  set (da := Z.pos (digits2_pos a)) in *. set (db := Z.pos (digits2_pos b)) in *.
  set (f := fexp 53 1024 (da + 0 - (db + 0))). set (e' := Z.min f (0 - 0)). set (sh := 0 - 0 - e').
  assert (Hs : 0 <= sh) by (unfold sh, e'; lia).
  assert (Em : match sh with Z0 => Z.pos a | Zpos _ => Z.shiftl (Z.pos a) sh | Zneg _ => 0 end = Z.pos a * 2 ^ sh).
  { destruct sh as [|p|p] eqn:E; [rewrite Z.pow_0_r; lia| |lia]. rewrite Z.shiftl_mul_pow2 by lia. reflexivity. }
  rewrite Em. clear Em. pose proof (Z_div_mod (Z.pos a * 2 ^ sh) (Z.pos b) ltac:(lia)) as DM. destruct (Z.div_eucl (Z.pos a * 2 ^ sh) (Z.pos b)) as [q r].
  destruct DM as [DM Hr]. exists r. replace (- e') with sh by (unfold sh; lia). split; [rewrite DM; ring|]. split; [exact Hr|].
  unfold new_location. destruct (Z.even (Z.pos b)) eqn:Ev.
  - unfold new_location_even. destruct (Zeq_bool r 0) eqn:Z0; [apply Zeq_bool_eq in Z0; exact Z0|]. apply Zeq_bool_neq in Z0.
    destruct (Z.compare_spec (2 * r) (Z.pos b)); cbn [located]; lia.
  - unfold new_location_odd. destruct (Zeq_bool r 0) eqn:Z0; [apply Zeq_bool_eq in Z0; exact Z0|]. apply Zeq_bool_neq in Z0.
    assert (Od : 2 * r <> Z.pos b). { intros E. rewrite <- E, Z.even_mul in Ev. discriminate. }
    destruct (Z.compare_spec (2 * r + 1) (Z.pos b)); cbn [located]; lia.
Qed.

(** [r] is what is kept of the positive number [X]: [q] units of [2^f], where the unit is the smallest there is or
    [X] has 53 bits before it. *)
Definition rounded (s : bool) (X : Q) (r : f64) : Prop :=
  exists q f, -1074 <= f /\ 0 <= q /\ (2 * Qabs (dy q f - X) <= dy 1 f)%Q /\ (f = -1074 \/ (dy (2 ^ 52) f <= X)%Q) /\ (X < dy (2 ^ 53) f)%Q
    /\ (q = 0 /\ r = S754_zero s
        \/ exists k ek, f <= ek /\ Z.pos k * 2 ^ (ek - f) = q /\ canonical_mantissa 53 1024 k ek = true
             /\ r = if ek <=? 971 then S754_finite s k ek else S754_infinity s).

Lemma dy_double a b e : (dy (2 * (a - b)) e == 2 * (dy a e - dy b e))%Q.
Proof. unfold dy, Zminus. rewrite inject_Z_mult, inject_Z_plus, inject_Z_opp. change (inject_Z 2) with 2%Q. ring. Qed.

Lemma round_aux_nearest s m e l R b X : 0 <= m -> e <= fexp 53 1024 (Zdigits2 m + e) -> 0 < b -> 0 <= R < b -> located l R b ->
  (X * inject_Z b == dy (m * b + R) e)%Q -> rounded s X (binary_round_aux 53 1024 s m e l).
Proof.
  intros Hm He Hb HR HL HX. destruct (round_aux_any s m e l Hm He) as (q & Hq & [_ N] & Q).
  set (f := fexp 53 1024 (Zdigits2 m + e)) in *. exists q, f. assert (P : 0 < 2 ^ (f - e)) by (apply Z.pow_pos_nonneg; lia).
  assert (Q0 : 0 <= m / 2 ^ (f - e)) by (apply Z.div_pos; lia).
  assert (PB : (0 < inject_Z b)%Q) by (change 0%Q with (inject_Z 0); rewrite <- Zlt_Qlt; exact Hb).
  assert (DB : forall z j, (dy z j * inject_Z b == dy (z * b) j)%Q) by (intros; unfold dy; rewrite inject_Z_mult; ring).
  assert (F : f = Z.max (Zdigits2 m + e - 53) (-1074)) by (unfold f, fexp, emin; lia).
  assert (D2 : m + 1 <= 2 ^ Zdigits2 m).
  { destruct m as [|m|m]; [cbn; lia| |lia]. cbn [Zdigits2]. pose proof (digits_pos m). lia. }
  split; [lia|]. split; [lia|]. split.
  - apply (Qmult_le_r _ _ _ PB).
    assert (E : (2 * Qabs (dy q f - X) * inject_Z b == Qabs (dy (2 * (q * 2 ^ (f - e) * b - (m * b + R))) e))%Q).
    { rewrite <- (Qabs_pos (inject_Z b)) at 1 by (apply Qlt_le_weak, PB). rewrite <- Qmult_assoc, <- Qabs_Qmult.
      change 2%Q with (Qabs 2) at 1. rewrite <- Qabs_Qmult. apply Qabs_wd.
      setoid_replace (2 * ((dy q f - X) * inject_Z b))%Q with (2 * (dy q f * inject_Z b - X * inject_Z b))%Q by ring.
      rewrite HX, DB. setoid_replace (dy (q * b) f) with (dy (q * 2 ^ (f - e) * b) e).
      - symmetry. apply dy_double.
      - replace (q * 2 ^ (f - e) * b) with (q * b * 2 ^ (f - e)) by ring. rewrite dy_shift by lia. replace (e + (f - e)) with f by lia. reflexivity. }
    rewrite E, DB. setoid_replace (dy (1 * b) f) with (dy (2 ^ (f - e) * b) e).
    2:{ replace (2 ^ (f - e) * b) with (1 * b * 2 ^ (f - e)) by ring. rewrite dy_shift by lia. replace (e + (f - e)) with f by lia. reflexivity. }
    pose proof (quarter_nearest _ _ _ _ _ _ Hb HR HL N) as G.
    apply Qabs_Qle_condition. split.
    + setoid_replace (- dy (2 ^ (f - e) * b) e)%Q with (dy (- (2 ^ (f - e) * b)) e) by (unfold dy; rewrite inject_Z_opp; ring). apply dy_le. lia.
    + apply dy_le. lia.
  - split; [|split].
    + destruct (Z.eq_dec f (-1074)) as [G|G]; [left; exact G|]. right.
      apply (Qmult_le_r _ _ _ PB). rewrite HX, DB.
      destruct m as [|m|m]; [cbn [Zdigits2] in F; lia| |lia]. cbn [Zdigits2] in F. pose proof (digits_pos m) as (D0 & D1 & _).
      setoid_replace (dy (2 ^ 52 * b) f) with (dy (2 ^ (Z.pos (digits2_pos m) - 1) * b) e).
      * apply dy_le. nia.
      * replace f with (e + (f - e)) at 1 by lia. rewrite <- dy_shift by lia.
        replace (2 ^ (Z.pos (digits2_pos m) - 1)) with (2 ^ 52 * 2 ^ (f - e)) by (rewrite <- Z.pow_add_r by lia; f_equal; lia).
        replace (2 ^ 52 * b * 2 ^ (f - e)) with (2 ^ 52 * 2 ^ (f - e) * b) by ring. reflexivity.
    + apply (Qmult_lt_r _ _ _ PB). rewrite HX, DB.
      assert (G : 2 ^ Zdigits2 m <= 2 ^ 53 * 2 ^ (f - e)).
      { rewrite <- Z.pow_add_r by lia. apply Z.pow_le_mono_r; lia. }
      setoid_replace (dy (2 ^ 53 * b) f) with (dy (2 ^ 53 * 2 ^ (f - e) * b) e).
      * apply dy_lt. nia.
      * replace (2 ^ 53 * 2 ^ (f - e) * b) with (2 ^ 53 * b * 2 ^ (f - e)) by ring. rewrite dy_shift by lia. replace (e + (f - e)) with f by lia. reflexivity.
    + exact Q.
Qed.

Lemma round_decimal_nearest s v x : 0 < v -> rounded s (inject_Z v * 10 ^ x) (round_decimal s v x).
Proof.
  intros Hv. destruct v as [|p|p]; [lia|clear Hv|lia]. cbn [round_decimal].
  assert (G : 0 <= x -> rounded s (inject_Z (Z.pos p) * 10 ^ x) (binary_round 53 1024 s (p * Z.to_pos (10 ^ x)) 0)).
  { intros Hx. destruct (binary_round_form s (p * Z.to_pos (10 ^ x)) 0) as (m' & e' & -> & Ev & He).
    apply (round_aux_nearest s (Z.pos m') e' loc_Exact 0 1); [lia|exact He|lia|lia|reflexivity|].
    rewrite Z.mul_1_r, Z.add_0_r, Ev. unfold dy. rewrite Pos2Z.inj_mul, Z2Pos.id by (apply Z.pow_pos_nonneg; lia). rewrite inject_Z_mult, Zpower_Qpower by exact Hx.
    change (inject_Z 10) with 10%Q. change (2 ^ 0)%Q with 1%Q. change (inject_Z 1) with 1%Q. ring. }
  destruct x as [|x|x]; [apply G; lia|apply G; lia|]. clear G.
  unfold round_ratio. set (b := Z.to_pos (10 ^ Z.pos x)). assert (Eb : Z.pos b = 10 ^ Z.pos x) by (apply Z2Pos.id, Z.pow_pos_nonneg; lia).
  pose proof (div_core_ok p 0 b 0) as K. pose proof (div_located p b) as M. pose proof (div_core_near p b) as M'.
  destruct (SFdiv_core_binary _ _ _ _ _ _) as [[q e] l]. destruct K as [Hq He], M as (R & E & HR & HL), M' as [Hn _].
  apply (round_aux_nearest s q e l R (Z.pos b)); try assumption; [lia|].
  rewrite <- E, dy_shift by lia. rewrite Z.add_opp_diag_r. unfold dy. change (2 ^ 0)%Q with 1%Q.
  rewrite Eb, Zpower_Qpower by lia. change (inject_Z 10) with 10%Q. rewrite <- Qmult_assoc, <- Qpower_plus by discriminate.
  change (Z.neg x) with (- Z.pos x). rewrite Z.add_opp_diag_l. change (10 ^ 0)%Q with 1%Q. ring.
Qed.

Lemma dy_opp_abs a b : (2 * Qabs a <= b)%Q -> (2 * a <= b /\ - (2 * a) <= b)%Q.
Proof. intros H. pose proof (Qle_Qabs a) as A. pose proof (Qle_Qabs (- a)) as B. rewrite Qabs_opp in B. split; lra. Qed.

(** A whole number which is kept as [k 2^e] is within half a unit of it. *)
Lemma whole_close s V k e : 0 < V -> round_decimal s V 0 = S754_finite s k e ->
  ((dy (Z.pos k) e - inject_Z V) * 2 ^ 53 <= inject_Z V /\ (inject_Z V - dy (Z.pos k) e) * 2 ^ 53 <= inject_Z V)%Q.
Proof.
  intros HV R. destruct (round_decimal_nearest s V 0 HV) as (q & f & F & Q0 & N & L & U & C). rewrite R in C. change (10 ^ 0)%Q with 1%Q in *.
  rewrite Qmult_1_r in *. destruct C as [[_ C]|(k' & ek & Hf & Eq & _ & C)]; [discriminate|]. destruct (ek <=? 971); [|discriminate]. injection C as <- <-.
  assert (D : (dy q f == dy (Z.pos k) e)%Q). { rewrite <- Eq, dy_shift by lia. replace (f + (e - f)) with e by lia. reflexivity. }
  assert (G : (dy (2 ^ 52) f <= inject_Z V)%Q).
  { destruct L as [-> |L]; [exfalso|exact L]. assert (X : (1 <= inject_Z V)%Q) by (change 1%Q with (inject_Z 1); rewrite <- Zle_Qle; lia).
    assert (Y : (dy (2 ^ 53) (-1074) <= 1)%Q) by (vm_compute; discriminate). revert U Y. generalize (dy (2 ^ 53) (-1074)). intros. lra. }
  rewrite D in N. assert (E : (dy (2 ^ 52) f == dy 1 f * 2 ^ 52)%Q) by (unfold dy; rewrite Zpower_Qpower by lia; change (inject_Z 2) with 2%Q; ring).
  rewrite E in G. apply dy_opp_abs in N as [N1 N2]. change (2 ^ 52)%Q with (4503599627370496 # 1)%Q in *. change (2 ^ 53)%Q with (9007199254740992 # 1)%Q.
  revert N1 N2 G. generalize (dy 1 f), (dy (Z.pos k) e). intros. split; lra.
Qed.

(** What is written for the number of [x] and read back: within 2^-41, wherever the number lies. *)
Lemma rewritten_near sg k e k1 e1 x1 V r' : bounded 53 1024 k e = true ->
  real_new (S754_finite sg k e) = Ok (RBinary (S754_finite sg k1 e1) 10 x1 10) -> 0 < V -> (forall s, round_decimal s V 0 = S754_finite s k1 e1) ->
  real_new (round_decimal sg V x1) = Ok r' ->
  exists k2 e2 x2, r' = RBinary (S754_finite sg k2 e2) 10 x2 10 /\ near (dy (Z.pos k2) e2 * 10 ^ x2) (dy (Z.pos k1) e1 * 10 ^ x1) 41.
Proof.
  intros B RN HV RV R'. pose proof (two_pos (-1074)) as PU.
  destruct (real_new_near sg k e B) as (k0 & e0 & x0 & E0 & D1 & P1 & _ & _ & N1 & Ex). rewrite E0 in RN. injection RN as -> -> ->. 
  change (near (dy (Z.pos k1) e1 * 10 ^ x1) (dy (Z.pos k) e) 43) in N1.
  pose proof (ten_pos x1) as PT. pose proof (whole_close sg V k1 e1 HV (RV sg)) as [W1 W2].
  set (m := (dy (Z.pos k1) e1 * 10 ^ x1)%Q) in *. set (v := (inject_Z V * 10 ^ x1)%Q).
  assert (PV : (0 < v)%Q) by (apply Qmult_lt_0_compat; [change 0%Q with (inject_Z 0); rewrite <- Zlt_Qlt; exact HV|exact PT]).
  assert (W3 : ((m - v) * 2 ^ 53 <= v /\ (v - m) * 2 ^ 53 <= v)%Q).
  { split; unfold m, v.
    - setoid_replace ((dy (Z.pos k1) e1 * 10 ^ x1 - inject_Z V * 10 ^ x1) * 2 ^ 53)%Q with ((dy (Z.pos k1) e1 - inject_Z V) * 2 ^ 53 * 10 ^ x1)%Q by ring.
      apply Qmult_le_compat_r; [exact W1|apply Qlt_le_weak, PT].
    - setoid_replace ((inject_Z V * 10 ^ x1 - dy (Z.pos k1) e1 * 10 ^ x1) * 2 ^ 53)%Q with ((inject_Z V - dy (Z.pos k1) e1) * 2 ^ 53 * 10 ^ x1)%Q by ring.
      apply Qmult_le_compat_r; [exact W2|apply Qlt_le_weak, PT]. }
  clear W1 W2. destruct W3 as [W1 W2]. apply near_bounds in N1 as [A1 A2].
  destruct (round_decimal_nearest sg V x1 HV) as (q & f & F & Q0 & N & L & U & C). fold v in N, L, U. apply dy_opp_abs in N as [N2 N3].
  pose proof (dy_pos (Z.pos k) e ltac:(lia)) as PX. set (X0 := dy (Z.pos k) e) in *.
  change (2 ^ 43)%Q with (8796093022208 # 1)%Q in *. change (2 ^ 53)%Q with (9007199254740992 # 1)%Q in *.
  assert (Fin : forall kf ef, round_decimal sg V x1 = S754_finite sg kf ef ->
    ((dy (Z.pos kf) ef - v) * (4398046511104 # 1) <= X0)%Q -> ((v - dy (Z.pos kf) ef) * (4398046511104 # 1) <= X0)%Q ->
    exists k2 e2 x2, r' = RBinary (S754_finite sg k2 e2) 10 x2 10 /\ near (dy (Z.pos k2) e2 * 10 ^ x2) m 41).
  { intros kf ef RF H1 H2. pose proof (round_decimal_ok sg V x1) as BF. rewrite RF in BF, R'. cbn [f64_ok] in BF.
    destruct (real_new_near sg kf ef BF) as (k2 & e2 & x2 & R2 & _ & _ & _ & _ & N4 & _). rewrite R2 in R'. injection R' as <-.
    exists k2, e2, x2. split; [reflexivity|]. change (near (dy (Z.pos k2) e2 * 10 ^ x2) (dy (Z.pos kf) ef) 43) in N4. apply near_bounds in N4 as [A7 A8].
    change (2 ^ 43)%Q with (8796093022208 # 1)%Q in *. clear - A1 A2 W1 W2 H1 H2 A7 A8 PV PX. revert A1 A2 W1 W2 H1 H2 A7 A8 PV PX.
    generalize (dy (Z.pos k2) e2 * 10 ^ x2)%Q, (dy (Z.pos kf) ef), m, v, X0. intros. apply near_intro; change (2 ^ 41)%Q with (2199023255552 # 1)%Q; lra. }
  assert (Dq : forall kf ef, f <= ef -> Z.pos kf * 2 ^ (ef - f) = q -> (dy (Z.pos kf) ef == dy q f)%Q).
  { intros kf ef Hf <-. rewrite dy_shift by lia. replace (f + (ef - f)) with ef by lia. reflexivity. }
  destruct (Z.eq_dec f (-1074)) as [Ef|Ef].
  - (* tiny *)
    subst f. clear L. apply bounded_cases in B as [Be B]. assert (He : -1074 <= e) by lia.
    set (K := Z.pos k * 2 ^ (e + 1074)). assert (P2 : 0 < 2 ^ (e + 1074)) by (apply Z.pow_pos_nonneg; lia).
    assert (EK : (X0 == dy K (-1074))%Q). { unfold K. rewrite dy_shift by lia. replace (-1074 + (e + 1074)) with e by lia. reflexivity. }
    set (u := dy 1 (-1074)) in *. assert (DU : forall z, (dy z (-1074) == inject_Z z * u)%Q) by (intros; unfold u, dy; change (inject_Z 1) with 1%Q; ring).
    assert (PU' : (0 < u)%Q) by (apply dy_pos; lia).
    destruct (Z_lt_le_dec K (2 ^ 41)) as [S|S].
    + assert (Eq : q = K).
      { assert (G : (Qabs (inject_Z q - inject_Z K) < 1)%Q).
        { apply (Qmult_lt_r _ _ u PU'). rewrite <- (Qabs_pos u) at 1 by (apply Qlt_le_weak, PU'). rewrite <- Qabs_Qmult.
          setoid_replace ((inject_Z q - inject_Z K) * u)%Q with (dy q (-1074) - X0)%Q by (rewrite EK, !DU; ring).
          assert (SK : (X0 <= (2199023255552 # 1) * u)%Q).
          { rewrite EK, DU. apply Qmult_le_compat_r; [|apply Qlt_le_weak, PU']. change (2199023255552 # 1)%Q with (inject_Z (2 ^ 41)). rewrite <- Zle_Qle. lia. }
          clear - N2 N3 A1 A2 W1 W2 SK PU' PX PV. revert N2 N3 A1 A2 W1 W2 SK PU' PX PV. generalize (dy q (-1074)), X0, v, m, u. intros.
          apply Qabs_case; intros; lra. }
        assert (G2 : (inject_Z (Z.abs (q - K)) < inject_Z 1)%Q).
        { setoid_replace (inject_Z (Z.abs (q - K))) with (Qabs (inject_Z q - inject_Z K)); [exact G|].
          setoid_replace (inject_Z q - inject_Z K)%Q with (inject_Z (q - K)) by (unfold Zminus; rewrite inject_Z_plus, inject_Z_opp; reflexivity). reflexivity. }
        rewrite <- Zlt_Qlt in G2. lia. }
      assert (Small : forall a z, -1074 <= z -> canonical_mantissa 53 1024 a z = true -> Z.pos a * 2 ^ (z + 1074) = K -> z = -1074 /\ Z.pos a = K).
      { intros a z Hz Ca Ea. assert (P3 : 0 < 2 ^ (z + 1074)) by (apply Z.pow_pos_nonneg; lia).
        unfold canonical_mantissa in Ca. apply Zeq_bool_eq in Ca. unfold fexp, emin in Ca. pose proof (digits_pos a) as (D0 & D3 & _).
        destruct (Z.eq_dec z (-1074)) as [-> |Z]; [split; [reflexivity|]; change (2 ^ (-1074 + 1074)) with 1 in Ea; lia|exfalso].
        assert (Z.pos (digits2_pos a) = 53) by lia. rewrite H in D3. change (2 ^ 41) with 2199023255552 in S. change (2 ^ (53 - 1)) with 4503599627370496 in D3. nia. }
      destruct C as [[C _]|(kf & ef & Hf & Eqf & Cf & C)]; [unfold K in Eq; lia|]. rewrite Eq in Eqf. replace (ef - -1074) with (ef + 1074) in Eqf by lia.
      destruct (Small kf ef Hf Cf Eqf) as [-> Kf].
      assert (Ck : canonical_mantissa 53 1024 k e = true).
      { unfold canonical_mantissa. apply Zeq_is_eq_bool. destruct B as [[Nk _]|[Bk ->]].
        - rewrite (normal_digits k Nk). unfold fexp, emin. lia.
        - pose proof (digits_pos k) as (D0 & D3 & _). assert (Z.pos (digits2_pos k) < 54).
          { destruct (Z_lt_le_dec (Z.pos (digits2_pos k)) 54) as [G|G]; [exact G|]. assert (2 ^ 53 <= 2 ^ (Z.pos (digits2_pos k) - 1)) by (apply Z.pow_le_mono_r; lia). change (2 ^ 52) with 4503599627370496 in Bk. change (2 ^ 53) with 9007199254740992 in *. lia. }
          unfold fexp, emin. lia. }
      destruct (Small k e He Ck eq_refl) as [-> Kk]. assert (kf = k) by congruence. subst kf. cbn [Z.leb Z.compare] in C.
      rewrite C, E0 in R'. injection R' as <-. exists k1, e1, x1. split; [reflexivity|]. fold m. unfold near. setoid_replace (m - m)%Q with 0%Q by ring.
      change (Qabs 0) with 0%Q. rewrite Qmult_0_l. apply Qlt_le_weak. apply Qmult_lt_0_compat; [apply dy_pos; lia|exact PT].
    + assert (SK : ((2199023255552 # 1) * u <= X0)%Q).
      { rewrite EK, DU. apply Qmult_le_compat_r; [|apply Qlt_le_weak, PU']. change (2199023255552 # 1)%Q with (inject_Z (2 ^ 41)). rewrite <- Zle_Qle. lia. }
      destruct C as [[C _]|(kf & ef & Hf & Eqf & Cf & C)].
      { exfalso. subst q. assert (Z0 : (dy 0 (-1074) == 0)%Q) by (vm_compute; reflexivity). rewrite Z0 in *.
        clear - N2 N3 A1 A2 W1 W2 SK PU' PX PV. revert N2 N3 A1 A2 W1 W2 SK PU' PX PV. generalize X0, v, m, u. intros. lra. }
      pose proof (Dq kf ef Hf Eqf) as Df.
      destruct (Z.leb_spec ef 971) as [Le|Le].
      2:{ exfalso. assert (Big : (1 <= dy (Z.pos kf) ef)%Q).
          { unfold dy. rewrite <- (Qmult_1_l 1). apply Qmult_le_compat_nonneg; (split; [discriminate|]).
            - change 1%Q with (inject_Z 1). rewrite <- Zle_Qle. lia.
            - rewrite <- (Zpower_Qpower 2) by lia. change 1%Q with (inject_Z 1). rewrite <- Zle_Qle. assert (0 < 2 ^ ef) by (apply Z.pow_pos_nonneg; lia). lia. }
          rewrite Df in Big. assert (Ut : (dy (2 ^ 53) (-1074) <= (1 # 4))%Q) by (vm_compute; discriminate). assert (Uu : (u <= (1 # 4))%Q) by (vm_compute; discriminate).
          clear - Big Ut Uu U N2. revert Big Ut Uu U N2. generalize (dy (2 ^ 53) (-1074)), (dy q (-1074)), u, v. intros. lra. }
      apply (Fin kf ef C); rewrite Df; clear - N2 N3 SK; revert N2 N3 SK; generalize (dy q (-1074)), v, X0, u; intros; lra.
  - (* normal *)
    destruct L as [L|L]; [contradiction|].
    assert (E52 : (dy (2 ^ 52) f == dy 1 f * (4503599627370496 # 1))%Q) by (unfold dy; change (inject_Z (2 ^ 52)) with (4503599627370496 # 1)%Q; ring).
    rewrite E52 in L. pose proof (dy_pos 1 f ltac:(lia)) as PU'. set (u := dy 1 f) in *.
    destruct C as [[C _]|(kf & ef & Hf & Eqf & Cf & C)].
    { exfalso. subst q. assert (Z0 : (dy 0 f == 0)%Q) by (unfold dy; ring). rewrite Z0 in *. clear - N2 N3 L PU'. revert N2 N3 L PU'. generalize v, u. intros. lra. }
    pose proof (Dq kf ef Hf Eqf) as Df.
    destruct (Z.leb_spec ef 971) as [Le|Le].
    + apply (Fin kf ef C); rewrite Df; clear - N2 N3 L PU' A1 A2 W1 W2 PX PV; revert N2 N3 L PU' A1 A2 W1 W2 PX PV; generalize (dy q f), v, X0, u, m; intros; lra.
    + exfalso. assert (Hk : 2 ^ 52 <= Z.pos kf).
      { unfold canonical_mantissa in Cf. apply Zeq_bool_eq in Cf. unfold fexp, emin in Cf. pose proof (digits_pos kf) as (_ & D3 & _).
        assert (G : Z.pos (digits2_pos kf) = 53) by lia. rewrite G in D3. exact D3. }
      assert (Big : (dy (2 ^ 53) 971 <= dy q f)%Q).
      { rewrite <- Df. apply Qle_trans with (dy (2 ^ 52) ef); [|apply dy_le; exact Hk].
        change (2 ^ 53) with (2 ^ 52 * 2 ^ 1). rewrite dy_shift by lia. replace ef with (971 + 1 + (ef - 971 - 1)) by lia. rewrite <- (dy_shift (2 ^ 52) _ (ef - 971 - 1)) by lia.
        apply dy_le. assert (0 < 2 ^ (ef - 971 - 1)) by (apply Z.pow_pos_nonneg; lia). nia. }
      assert (D971 : forall z, (dy z 971 == inject_Z z * dy 1 971)%Q) by (intros; unfold dy; change (inject_Z 1) with 1%Q; ring).
      rewrite D971 in Big. change (inject_Z (2 ^ 53)) with (9007199254740992 # 1)%Q in Big. pose proof (dy_pos 1 971 ltac:(lia)) as PH.
      set (h := dy 1 971) in *.
      assert (Mb : ((9007199254740990 # 1) * h < m)%Q).
      { clear - Big PH N2 N3 L W1 W2 PV PU'. revert Big PH N2 N3 L W1 W2 PV PU'. generalize (dy q f), h, u, v, m. intros. lra. }
      apply bounded_cases in B as [Be B]. assert (Hk53 : Z.pos k < 2 ^ 53) by (unfold normal in B; lia).
      assert (Xb : ((4503599627370496 # 1) * h < X0)%Q).
      { clear - Mb A1 A2 PH PX. revert Mb A1 A2 PH PX. generalize h, m, X0. intros. lra. }
      assert (He : e = 971).
      { destruct (Z.eq_dec e 971) as [G|G]; [exact G|exfalso]. 
        assert (X0 <= dy (2 ^ 52) 971)%Q.
        { apply Qle_trans with (dy (2 ^ 53) e); [apply dy_le; lia|]. change (2 ^ 53) with (2 ^ 52 * 2 ^ 1). rewrite dy_shift by lia.
          replace 971 with (e + 1 + (970 - e)) by lia. rewrite <- (dy_shift (2 ^ 52) _ (970 - e)) by lia. apply dy_le.
          assert (0 < 2 ^ (970 - e)) by (apply Z.pow_pos_nonneg; lia). nia. }
        rewrite D971 in H. change (inject_Z (2 ^ 52)) with (4503599627370496 # 1)%Q in H. clear - H Xb. revert H Xb. generalize h, X0. intros. lra. }
      subst e. assert (Ei : (X0 == inject_Z (Z.pos k * 2 ^ 971))%Q) by (unfold X0, dy; rewrite inject_Z_mult, Zpower_Qpower by lia; reflexivity).
      destruct (Ex _ Ei) as [Hx Em]. fold m in Em.
      assert (Kk : Z.pos k = 2 ^ 53 - 1).
      { assert (G : ((9007199254740990 # 1) * h < inject_Z (Z.pos k) * h)%Q).
        { rewrite <- D971. fold X0. rewrite <- Em. exact Mb. }
        apply -> (Qmult_lt_r (9007199254740990 # 1) (inject_Z (Z.pos k)) h PH) in G. assert (G2 : 9007199254740990 < Z.pos k) by (rewrite Zlt_Qlt; exact G).
        change (2 ^ 53) with 9007199254740992 in *. lia. }
      destruct (Z.eq_dec x1 0) as [-> |Hx1].
      { rewrite RV in C. destruct (Z.leb_spec ef 971); [lia|discriminate]. }
      assert (Im : int_of k1 e1 * 10 ^ x1 = Z.pos k * 2 ^ 971).
      { apply inject_Z_injective. rewrite inject_Z_mult, Zpower_Qpower by lia. change (inject_Z 10) with 10%Q. rewrite <- D1, <- Ei. exact Em. }
      rewrite Kk in Im. assert (Md : ((2 ^ 53 - 1) * 2 ^ 971) mod 5 <> 0) by (vm_compute; discriminate).
      apply Md. rewrite <- Im. replace x1 with (1 + (x1 - 1)) by lia. rewrite Z.pow_add_r by lia.
      replace (int_of k1 e1 * (10 ^ 1 * 10 ^ (x1 - 1))) with (int_of k1 e1 * 2 * 10 ^ (x1 - 1) * 5) by ring. apply Z.mod_mul. lia.
Qed.
