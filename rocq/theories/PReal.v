(** Proofs about REAL. *)
From Coq Require Import SpecFloat QArith Qpower Qabs.
From Verif Require Import Base MHeader SHeader PArith MInt SInt PInt MReal PFloat SReal.
Local Open Scope Z_scope.

(** ** Dyadic numbers *)

Definition dy (m e : Z) : Q := (inject_Z m * 2 ^ e)%Q.

Lemma two_ne : ~ (2 == 0)%Q.
Proof. discriminate. Qed.

Lemma two_pos e : (0 < 2 ^ e)%Q.
Proof. apply Qpower_0_lt. reflexivity. Qed.

Lemma dy_shift m e j : 0 <= j -> (dy (m * 2 ^ j) e == dy m (e + j))%Q.
Proof.
  intro H. unfold dy. rewrite inject_Z_mult, Zpower_Qpower by exact H. rewrite Qpower_plus by exact two_ne.
  change (inject_Z 2) with 2%Q. ring.
Qed.

Lemma dy_scale m e j : (dy m e * 2 ^ j == dy m (e + j))%Q.
Proof. unfold dy. rewrite Qpower_plus by exact two_ne. ring. Qed.

Lemma dy_inj m m' e : (dy m e == dy m' e)%Q -> m = m'.
Proof.
  unfold dy. intro H. pose proof (two_pos e) as P. apply Qmult_inj_r in H.
  - unfold Qeq in H. cbn in H. lia.
  - intro E. rewrite E in P. discriminate.
Qed.

Lemma dy_lt m m' e : (dy m e < dy m' e)%Q <-> m < m'.
Proof.
  unfold dy. rewrite Qmult_lt_r by apply two_pos. symmetry. rewrite Zlt_Qlt. reflexivity.
Qed.

Lemma dy_le m m' e : (dy m e <= dy m' e)%Q <-> m <= m'.
Proof.
  unfold dy. rewrite Qmult_le_r by apply two_pos. symmetry. rewrite Zle_Qle. reflexivity.
Qed.

(** Two numbers in one form: odd times a power of two. *)
Lemma dy_odd n e n' e' : Z.odd n = true -> Z.odd n' = true -> (dy n e == dy n' e')%Q -> n = n' /\ e = e'.
Proof.
  assert (G: forall n e n' e', Z.odd n = true -> Z.odd n' = true -> e <= e' -> (dy n e == dy n' e')%Q -> n = n' /\ e = e').
  { clear. intros n e n' e' O O' L H. replace e' with (e + (e' - e)) in H by lia. rewrite <- dy_shift in H by lia.
    apply dy_inj in H. destruct (Z.eq_dec e e') as [->|Ne]; [rewrite Z.sub_diag in H; lia|].
    replace (e' - e) with (Z.succ (e' - e - 1)) in H by lia. rewrite Z.pow_succ_r in H by lia.
    rewrite H in O. rewrite Z.mul_assoc, (Z.mul_comm n' 2), <- Z.mul_assoc in O. rewrite Z.odd_mul in O. discriminate. }
  intros O O' H. destruct (Z_le_gt_dec e e').
  - eauto.
  - destruct (G n' e' n e) as [A B]; auto; [lia | symmetry; exact H].
Qed.

Lemma odd_part p : exists n i, Z.odd n = true /\ 0 < n /\ 0 <= i /\ Z.pos p = n * 2 ^ i.
Proof.
  induction p as [p IH | p IH |].
  - exists (Z.pos p~1), 0. repeat split; lia.
  - destruct IH as (n & i & O & P & I & E). exists n, (i + 1). repeat split; try assumption; try lia.
    rewrite Z.pow_add_r by lia. change (Z.pos p~0) with (2 * Z.pos p). rewrite E. ring.
  - exists 1, 0. repeat split; lia.
Qed.

Lemma odd_div n i j : Z.odd n = true -> 0 <= i -> 0 <= j -> (n * 2 ^ i mod 2 ^ j =? 0) = (j <=? i).
Proof.
  intros O I J. destruct (Z.leb_spec j i) as [L|L].
  - replace i with (i - j + j) by lia. rewrite Z.pow_add_r by lia. rewrite Z.mul_assoc, Z.mod_mul; [reflexivity|].
    apply Z.pow_nonzero; lia.
  - apply Z.eqb_neq. intro E. assert (HP: 0 < 2 ^ j) by (apply Z.pow_pos_nonneg; lia).
    apply Z.mod_divide in E; [|lia]. destruct E as [q E].
    replace j with (Z.succ (j - i - 1) + i) in E by lia. rewrite Z.pow_add_r, Z.pow_succ_r in E by lia.
    assert (n = 2 * (q * 2 ^ (j - i - 1))).
    { apply Z.mul_cancel_r with (p := 2 ^ i); [apply Z.pow_nonzero; lia|]. rewrite E. ring. }
    rewrite H in O. rewrite Z.odd_mul in O. discriminate.
Qed.

(** ** Reading *)

Lemma wrap_fold bs : forall a p, p = wrap_i32 a ->
  fold_left (fun p b => wrap_i32 (p * 256 + Z.of_N b)) bs p = wrap_i32 (a * pw (length bs) + val bs).
Proof.
  induction bs as [|b r IH]; intros a p E; cbn [fold_left length].
  - rewrite pw_0, val_nil. rewrite E. f_equal. lia.
  - rewrite (IH (a * 256 + Z.of_N b)).
    + f_equal. rewrite val_cons, pw_S. ring.
    + subst p. unfold wrap_i32. change (2 ^ 31) with 2147483648. change (2 ^ 32) with 4294967296. lia.
Qed.

Lemma wrap_i32_small z : - 2 ^ 31 <= z < 2 ^ 31 -> wrap_i32 z = z.
Proof. unfold wrap_i32. change (2 ^ 31) with 2147483648. change (2 ^ 32) with 4294967296. lia. Qed.

Lemma read_exponent_twos eo : bytes_ok eo -> (1 <= length eo <= 4)%nat -> read_exponent eo = twos eo.
Proof.
  intros Hok Hl. unfold read_exponent. destruct eo as [|a r]; [cbn in Hl; lia|]. cbn [hd].
  pose proof (twos_bound a r Hok) as B. cbn [length] in Hl.
  assert (M: pw (length r) <= pw 3) by (apply pw_mono; lia). change (pw 3) with 16777216 in M.
  assert (R: - 2 ^ 31 <= twos (a :: r) < 2 ^ 31) by (change (2 ^ 31) with 2147483648; lia).
  rewrite <- (wrap_i32_small (twos (a :: r)) R).
  destruct (N.leb_spec 128 a).
  - rewrite (wrap_fold _ (-1)) by reflexivity. f_equal. rewrite twos_val_neg by lia. cbn [length]. lia.
  - rewrite (wrap_fold _ 0) by reflexivity. f_equal. rewrite twos_val_pos by lia. lia.
Qed.

Lemma wrap_i64_idem a : wrap_i64 (wrap_i64 a) = wrap_i64 a.
Proof. unfold wrap_i64. change (2 ^ 63) with 9223372036854775808. change (2 ^ 64) with 18446744073709551616. lia. Qed.

Lemma read_mantissa_wrap bs : read_mantissa bs = wrap_i64 (val bs).
Proof.
  unfold read_mantissa.
  assert (G: forall bs a p, p = wrap_i64 a ->
    fold_left (fun p b => wrap_i64 (p * 256 + Z.of_N b)) bs p = wrap_i64 (a * pw (length bs) + val bs)).
  { clear. induction bs as [|b r IH]; intros a p E; cbn [fold_left length].
    - rewrite pw_0, val_nil. rewrite E. f_equal. lia.
    - rewrite (IH (a * 256 + Z.of_N b)).
      + f_equal. rewrite val_cons, pw_S. ring.
      + subst p. unfold wrap_i64. change (2 ^ 63) with 9223372036854775808. change (2 ^ 64) with 18446744073709551616. lia. }
  rewrite (G bs 0 0); [f_equal; lia | reflexivity].
Qed.

Lemma wrap_i64_small z : - 2 ^ 63 <= z < 2 ^ 63 -> wrap_i64 z = z.
Proof. unfold wrap_i64. change (2 ^ 63) with 9223372036854775808. change (2 ^ 64) with 18446744073709551616. lia. Qed.

(** The mantissa as a floating-point number, scaled. *)
Definition scaled (p : Z) (sf : N) : f64 :=
  if (sf =? 0)%N then f64_of_Z p else fmul (f64_of_Z p) (powi (f64_of_Z 2) (Z.of_N sf)).

Lemma scaled_finite p sf k e : (sf <= 3)%N -> f64_of_Z p = S754_finite (p <? 0) k e -> normal k -> -1000 <= e <= 900 ->
  scaled p sf = S754_finite (p <? 0) k (e + Z.of_N sf).
Proof.
  intros Hs E Hk He. unfold scaled. destruct (N.eqb_spec sf 0) as [->|Ne].
  - rewrite E. f_equal. lia.
  - rewrite powi_two by lia. rewrite E. apply fmul_pow2. apply bounded_normal; [assumption | lia].
Qed.

Lemma scaled_zero sf : (sf <= 3)%N -> scaled 0 sf = S754_zero false.
Proof.
  intros H. assert (sf = 0 \/ sf = 1 \/ sf = 2 \/ sf = 3)%N as D by lia.
  destruct D as [-> | [-> | [-> | ->]]]; vm_compute; reflexivity.
Qed.

(** Exact below 2^53. *)
Lemma scaled_exact p sf : (sf <= 3)%N -> Z.abs p < 2 ^ 53 ->
  exists q, f64_value (scaled p sf) = Some q /\ (q == dy p (Z.of_N sf))%Q.
Proof.
  intros Hs Hp. destruct (Z.eq_dec p 0) as [->|Ne].
  { rewrite scaled_zero by exact Hs. exists 0%Q. split; [reflexivity|]. unfold dy. ring. }
  destruct (f64_of_small p) as (k & j & E & Hk & Hj & Ek); [lia|].
  rewrite (scaled_finite p sf k (- j)); [|assumption | assumption | assumption | lia].
  eexists. split; [reflexivity|].
  replace (if p <? 0 then Z.neg k else Z.pos k) with (p * 2 ^ j).
  2:{ destruct (Z.ltb_spec p 0); [change (Z.neg k) with (- Z.pos k)|]; rewrite Ek; nia. }
  change (dy (p * 2 ^ j) (- j + Z.of_N sf) == dy p (Z.of_N sf))%Q. rewrite dy_shift by lia.
  replace (- j + Z.of_N sf + j) with (Z.of_N sf) by lia. reflexivity.
Qed.

(** Within one part in 2^53 below 2^64. *)
Lemma scaled_near p sf : (sf <= 3)%N -> Z.abs p < 2 ^ 64 ->
  exists q, f64_value (scaled p sf) = Some q
    /\ (Qabs (q - dy p (Z.of_N sf)) * 2 ^ 53 <= Qabs (dy p (Z.of_N sf)))%Q.
Proof.
  intros Hs Hp. destruct (Z_lt_le_dec (Z.abs p) (2 ^ 53)) as [L|L].
  { destruct (scaled_exact p sf Hs L) as (q & E & Eq). exists q. split; [exact E|].
    rewrite Eq. setoid_replace (dy p (Z.of_N sf) - dy p (Z.of_N sf))%Q with 0%Q by ring.
    change (Qabs 0) with 0%Q. setoid_replace (0 * 2 ^ 53)%Q with 0%Q by ring. apply Qabs_nonneg. }
  destruct (f64_of_large p) as (k & e & E & Hk & He & Hn & _); [lia|].
  rewrite (scaled_finite p sf k e); [|assumption | assumption | assumption | lia].
  eexists. split; [reflexivity|].
  set (u := if p <? 0 then Z.neg k else Z.pos k).
  assert (Hu: Z.abs (u * 2 ^ e - p) * 2 ^ 53 <= Z.abs p).
  { subst u. destruct (Z.ltb_spec p 0); [change (Z.neg k) with (- Z.pos k)|]; assert (0 < 2 ^ e) by (apply Z.pow_pos_nonneg; lia); nia. }
  fold (dy u (e + Z.of_N sf)). replace (e + Z.of_N sf) with (Z.of_N sf + e) by lia. rewrite <- dy_shift by lia.
  unfold dy. setoid_replace (inject_Z (u * 2 ^ e) * 2 ^ Z.of_N sf - inject_Z p * 2 ^ Z.of_N sf)%Q
    with (inject_Z (u * 2 ^ e - p) * 2 ^ Z.of_N sf)%Q.
  2:{ unfold Z.sub. rewrite inject_Z_plus, inject_Z_opp. ring. }
  rewrite !Qabs_Qmult. rewrite (Qabs_pos (2 ^ Z.of_N sf)) by (apply Qlt_le_weak, two_pos).
  assert (A: forall z, (Qabs (inject_Z z) == inject_Z (Z.abs z))%Q) by (intro z; unfold Qabs, inject_Z; reflexivity).
  rewrite !A. setoid_replace (inject_Z (Z.abs (u * 2 ^ e - p)) * 2 ^ Z.of_N sf * 2 ^ 53)%Q
    with (inject_Z (Z.abs (u * 2 ^ e - p) * 2 ^ 53) * 2 ^ Z.of_N sf)%Q.
  2:{ rewrite inject_Z_mult, Zpower_Qpower by lia. change (inject_Z 2) with 2%Q. ring. }
  apply Qmult_le_r; [apply two_pos|]. rewrite <- Zle_Qle. exact Hu.
Qed.

Definition log_base (code : N) : Z := if (code =? 0)%N then 1 else if (code =? 1)%N then 3 else 4.
Definition base_number (code : N) : N := if (code =? 0)%N then 2%N else if (code =? 1)%N then 8%N else 16%N.

Lemma firstn_blen {A} (a b : list A) : firstn (N.to_nat (blen a)) (a ++ b) = a.
Proof. unfold blen. rewrite Nnat.Nat2N.id. now rewrite firstn_app, Nat.sub_diag, firstn_all, app_nil_r. Qed.
Lemma skipn_blen {A} (a b : list A) : skipn (N.to_nat (blen a)) (a ++ b) = b.
Proof. unfold blen. rewrite Nnat.Nat2N.id. now rewrite skipn_app, Nat.sub_diag, skipn_all. Qed.

Lemma first_octet_parts p code : (bp_base_code p <= 2)%N -> (bp_factor p <= 3)%N -> (code <= 3)%N ->
  let first := first_octet p code in
  ((first / 128) mod 2 = 1 /\ (first / 64) mod 2 = (if bp_negative p then 1 else 0) /\ (first / 16) mod 4 = bp_base_code p
   /\ (first / 4) mod 4 = bp_factor p /\ first mod 4 = code /\ first < 256)%N.
Proof. intros. subst first. unfold first_octet. destruct (bp_negative p); lia. Qed.

(** What the binary form is read as, the exponent taking [code + 1] octets. *)
Definition read_as (neg : bool) (b f : N) (e : Z) (mo : bytes) : res real :=
  if (8 <? blen mo)%N then Err EInvalidValue
  else let w := wrap_i64 (val mo) in
       if neg && (w =? - 2 ^ 63) then Panic
       else Ok (RBinary (scaled (if neg then - w else w) f) 2 (e * log_base b) (base_number b)).

Lemma decode_parts p eo mo code : in_parts p eo mo -> (code <= 3)%N -> blen eo = (code + 1)%N ->
  i32_min <= bp_exponent p * log_base (bp_base_code p) <= i32_max ->
  forall h, decode_real h (first_octet p code :: eo ++ mo)
            = read_as (bp_negative p) (bp_base_code p) (bp_factor p) (bp_exponent p) mo.
Proof.
  intros (Hb & Hf & Oe & Om & Ne & Nm & Te & Vm) Hc Le Hr h.
  destruct (first_octet_parts p code Hb Hf Hc) as (F1 & F2 & F3 & F4 & F5 & _).
  unfold decode_real. rewrite F1. cbn [N.eqb Pos.eqb]. unfold decode_binary. rewrite F5, F3, F2, F4.
  assert (Lm: (1 <= blen mo)%N) by (destruct mo; [congruence | rewrite blen_cons; lia]).
  destruct (N.leb_spec (blen (eo ++ mo)) (code + 1)) as [L|L]; [rewrite blen_app in L; lia|]. clear L.
  rewrite <- Le, firstn_blen, skipn_blen.
  rewrite read_exponent_twos; [|assumption | unfold blen in *; lia]. rewrite Te.
  destruct (N.eqb_spec (bp_base_code p) 3); [lia|].
  fold (log_base (bp_base_code p)). fold (base_number (bp_base_code p)).
  unfold as_i32. replace ((i32_min <=? bp_exponent p * log_base (bp_base_code p)) && (bp_exponent p * log_base (bp_base_code p) <=? i32_max))
    with true by (symmetry; apply andb_true_iff; split; apply Z.leb_le; lia).
  cbn [bind]. unfold read_as. destruct (8 <? blen mo)%N; [reflexivity|].
  rewrite read_mantissa_wrap. fold (scaled (wrap_i64 (val mo)) (bp_factor p)).
  destruct (bp_negative p); [change ((1 =? 1)%N) with true | change ((0 =? 1)%N) with false]; cbv iota; [|reflexivity].
  cbn [andb]. destruct (wrap_i64 (val mo) =? - 2 ^ 63); reflexivity.
Qed.

(** ** Writing *)

Lemma as_i32_ok z : i32_min <= z <= i32_max -> as_i32 z = Ok z.
Proof. intros. unfold as_i32. replace ((i32_min <=? z) && (z <=? i32_max)) with true; [reflexivity|]. symmetry; apply andb_true_iff; split; apply Z.leb_le; lia. Qed.

Lemma has_fract_odd s k e n i : Z.odd n = true -> 0 <= i -> Z.pos k = n * 2 ^ i ->
  has_fract (S754_finite s k e) = (e + i <? 0).
Proof.
  intros O I E. unfold has_fract. destruct e as [|d|d].
  - symmetry; apply Z.ltb_ge; lia.
  - symmetry; apply Z.ltb_ge; lia.
  - rewrite E, odd_div by (assumption || lia). destruct (Z.leb_spec (Z.pos d) i), (Z.ltb_spec (Z.neg d + i) 0); try reflexivity; lia.
Qed.

(** The number of multiplications by 2^c which make n 2^t an integer. *)
Definition steps (c t : Z) : Z := Z.max 0 (- (t / c)).

Lemma drop_loop_ok c b n : In (c, b) [(1, 2%N); (3, 8%N); (4, 16%N)] -> Z.odd n = true ->
  forall j k ek i e fuel, normal k -> Z.pos k = n * 2 ^ i -> 0 <= i ->
  (-104 < ek \/ ek = -104 /\ 2 ^ 52 < Z.pos k) -> ek <= 971 -> steps c (ek + i) = Z.of_nat j -> (j < fuel)%nat ->
  i32_min <= e - Z.of_nat j -> e <= i32_max ->
  drop_loop fuel b (S754_finite false k ek) e = Ok (S754_finite false k (ek + c * Z.of_nat j), e - Z.of_nat j).
Proof.
  intros HB O. assert (Hcb: 0 < c <= 4 /\ f64_of_Z (Z.of_N b) = pow2f c).
  { destruct HB as [X|[X|[X|[]]]]; injection X as <- <-; (split; [lia | reflexivity]). }
  destruct Hcb as [Hc Hbf]. clear HB.
  induction j as [|j IH]; intros k ek i e fuel Hk E I Hek Hle Hj Hf He1 He2; (destruct fuel as [|fuel]; [lia|]);
    cbn [drop_loop SFabs]; rewrite above_epsilon_intro by assumption; rewrite (has_fract_odd _ _ _ n i O I E).
  - unfold steps in Hj. assert (0 <= (ek + i) / c) by lia.
    assert (0 <= ek + i). { destruct (Z_lt_le_dec (ek + i) 0); [|assumption]. assert ((ek + i) / c < 0) by (apply Z.div_lt_upper_bound; lia). lia. }
    destruct (Z.ltb_spec (ek + i) 0); [lia|]. do 2 f_equal; [f_equal|]; lia.
  - unfold steps in Hj. assert ((ek + i) / c = - Z.of_nat (S j)) as Q by lia.
    assert (ek + i < 0). { destruct (Z_lt_le_dec (ek + i) 0); [assumption|]. assert (0 <= (ek + i) / c) by (apply Z.div_pos; lia). lia. }
    destruct (Z.ltb_spec (ek + i) 0); [|lia].
    rewrite as_i32_ok by lia. cbn [bind]. rewrite Hbf, fmul_pow2.
    2:{ apply bounded_normal; [assumption | lia]. }
    rewrite (IH k (ek + c) i (e - 1) fuel); try assumption; try lia.
    + f_equal. f_equal; [f_equal|]; nia.
    + unfold steps. replace (ek + c + i) with (ek + i + 1 * c) by lia. rewrite Z.div_add by lia. lia.
Qed.

Lemma f64_as_u64_odd k e n i : Z.pos k = n * 2 ^ i -> 0 <= i -> 0 <= e + i -> 0 < n -> n * 2 ^ (e + i) < 2 ^ 64 ->
  f64_as_u64 (S754_finite false k e) = Z.to_N (n * 2 ^ (e + i)).
Proof.
  intros E I P N L. unfold f64_as_u64. f_equal.
  assert (T: f64_trunc (S754_finite false k e) = n * 2 ^ (e + i)).
  { cbn [f64_trunc cond_Zopp]. destruct e as [|d|d].
    - rewrite E. rewrite Z.pow_0_r, Z.mul_1_r. reflexivity.
    - rewrite E, <- Z.mul_assoc, <- Z.pow_add_r by lia. f_equal. f_equal. lia.
    - replace (Z.pos k) with (n * 2 ^ (Z.neg d + i) * 2 ^ Z.pos d).
      + apply Z.div_mul. apply Z.pow_nonzero; lia.
      + rewrite E, <- Z.mul_assoc, <- Z.pow_add_r by lia. do 2 f_equal. lia. }
  rewrite T. lia.
Qed.

Lemma f64_as_u64_large k e n i : Z.pos k = n * 2 ^ i -> 0 <= i -> 0 <= e + i -> 0 < n -> 2 ^ 64 <= n * 2 ^ (e + i) ->
  f64_as_u64 (S754_finite false k e) = (2 ^ 64 - 1)%N.
Proof.
  intros E I P N L. unfold f64_as_u64.
  assert (T: f64_trunc (S754_finite false k e) = n * 2 ^ (e + i)).
  { cbn [f64_trunc cond_Zopp]. destruct e as [|d|d].
    - rewrite E. rewrite Z.pow_0_r, Z.mul_1_r. reflexivity.
    - rewrite E, <- Z.mul_assoc, <- Z.pow_add_r by lia. f_equal. f_equal. lia.
    - replace (Z.pos k) with (n * 2 ^ (Z.neg d + i) * 2 ^ Z.pos d).
      + apply Z.div_mul. apply Z.pow_nonzero; lia.
      + rewrite E, <- Z.mul_assoc, <- Z.pow_add_r by lia. do 2 f_equal. lia. }
  rewrite T. rewrite Z.min_r by lia. reflexivity.
Qed.

Lemma N_of_odd n u : 0 < n -> 0 <= u -> Z.of_N (Z.to_N (n * 2 ^ u)) = n * 2 ^ u.
Proof. intros. apply Z2N.id. apply Z.mul_nonneg_nonneg; [lia | apply Z.pow_nonneg; lia]. Qed.

Lemma mod_odd n u c : Z.odd n = true -> 0 < n -> 0 <= u -> (Z.to_N (n * 2 ^ u) mod 2 ^ c =? 0)%N = (Z.of_N c <=? u).
Proof.
  intros O P U. rewrite <- odd_div with (n := n) by (assumption || lia).
  pose proof (N_of_odd n u P U) as E.
  destruct (Z.eqb_spec (n * 2 ^ u mod 2 ^ Z.of_N c) 0) as [A|A].
  - apply N.eqb_eq. apply N2Z.inj. rewrite N2Z.inj_mod, N2Z.inj_pow, E. exact A.
  - apply N.eqb_neq. intro B. apply A. apply (f_equal Z.of_N) in B. rewrite N2Z.inj_mod, N2Z.inj_pow, E in B. exact B.
Qed.

Lemma div_odd n u c : 0 < n -> Z.of_N c <= u -> (Z.to_N (n * 2 ^ u) / 2 ^ c)%N = Z.to_N (n * 2 ^ (u - Z.of_N c)).
Proof.
  intros P U. apply N2Z.inj. rewrite N2Z.inj_div, N2Z.inj_pow, !N_of_odd by lia.
  replace u with (u - Z.of_N c + Z.of_N c) at 1 by lia. rewrite Z.pow_add_r by lia. rewrite Z.mul_assoc.
  apply Z.div_mul. apply Z.pow_nonzero; lia.
Qed.

Lemma shift_loop_ok c n : (0 < c)%N -> Z.odd n = true -> 0 < n ->
  forall j u e fuel, 0 <= u -> u / Z.of_N c = Z.of_nat j -> (j < fuel)%nat -> i32_min <= e -> e + Z.of_nat j <= i32_max ->
  shift_loop fuel c (Z.to_N (n * 2 ^ u)) e = Ok (Z.to_N (n * 2 ^ (u mod Z.of_N c)), e + Z.of_nat j).
Proof.
  intros Hc O P. induction j as [|j IH]; intros u e fuel U Q F L1 L2; (destruct fuel as [|fuel]; [lia|]); cbn [shift_loop];
    rewrite (mod_odd n u c O P U).
  - assert (u < Z.of_N c). { destruct (Z_lt_le_dec u (Z.of_N c)); [assumption|]. assert (1 <= u / Z.of_N c) by (apply Z.div_le_lower_bound; lia). lia. }
    destruct (Z.leb_spec (Z.of_N c) u); [lia|]. rewrite Z.mod_small by lia. do 2 f_equal. lia.
  - assert (Z.of_N c <= u). { destruct (Z_lt_le_dec u (Z.of_N c)) as [X|X]; [|assumption]. rewrite Z.div_small in Q by lia. lia. }
    destruct (Z.leb_spec (Z.of_N c) u); [|lia]. rewrite as_i32_ok by lia. cbn [bind]. rewrite div_odd by assumption.
    rewrite (IH (u - Z.of_N c) (e + 1)); try lia.
    + f_equal. f_equal; [|lia]. do 2 f_equal. f_equal. replace (u - Z.of_N c) with (u + (-1) * Z.of_N c) by lia. apply Z.mod_add; lia.
    + replace (u - Z.of_N c) with (u + (-1) * Z.of_N c) by lia. rewrite Z.div_add by lia. lia.
Qed.

Lemma scale_loop_ok n : Z.odd n = true -> 0 < n -> forall v, 0 <= v <= 3 ->
  scale_loop 5 (Z.to_N (n * 2 ^ v)) 0 = (Z.to_N n, Z.to_N v).
Proof.
  intros O P.
  assert (G: forall (j : nat) v sf fuel, v = Z.of_nat j -> (j < fuel)%nat -> (sf + N.of_nat j < 4)%N ->
    scale_loop fuel (Z.to_N (n * 2 ^ v)) sf = (Z.to_N n, (sf + N.of_nat j)%N)).
  { induction j as [|j IH]; intros v sf fuel V F S; (destruct fuel as [|fuel]; [lia|]); cbn [scale_loop];
      change 2%N with (2 ^ 1)%N at 1; rewrite (mod_odd n v 1 O P) by lia.
    - destruct (Z.leb_spec (Z.of_N 1) v); [lia|]. cbn [andb]. subst v. cbn [Z.of_nat]. rewrite Z.pow_0_r, Z.mul_1_r. f_equal. lia.
    - destruct (Z.leb_spec (Z.of_N 1) v); [|lia]. cbn [andb]. destruct (N.ltb_spec sf 4); [|lia].
      change 2%N with (2 ^ 1)%N. rewrite div_odd by lia. rewrite (IH (v - 1)); [f_equal; lia | lia | lia | lia]. }
  intros v V. rewrite (G (Z.to_nat v) v 0%N 5%nat) by lia. f_equal. lia.
Qed.

(** Logarithm of the base, base and code. *)
Definition base_row (c : Z) (b code : N) : Prop := In (c, b, code) [(1, 2%N, 0%N); (3, 8%N, 1%N); (4, 16%N, 2%N)].

Definition exponent_bytes (e : Z) : bytes :=
  skipn (N.to_nat (4 - exponent_octets (Z.abs e))) (be_bytes 4 (Z.to_N (e mod 2 ^ 32))).

Lemma first_octet_lor (s : bool) b code sf l c : base_row c b code -> (sf <= 3)%N -> (1 <= l <= 4)%N ->
  forall e n, N.lor (N.lor (N.lor (N.lor 128 (if s then 64 else 0))
                (if (b =? 2)%N then 0 else if (b =? 8)%N then 16 else 32)) (N.shiftl sf 2 mod 256)) ((l - 1) mod 4)
  = first_octet (mk_parts s code sf e n) (l - 1).
Proof.
  intros HB Hs Hl e n. unfold first_octet. cbn [bp_negative bp_base_code bp_factor].
  assert (S: (sf = 0 \/ sf = 1 \/ sf = 2 \/ sf = 3)%N) by lia.
  assert (L: (l = 1 \/ l = 2 \/ l = 3 \/ l = 4)%N) by lia.
  destruct HB as [X|[X|[X|[]]]]; injection X as <- <- <-;
    destruct S as [-> | [-> | [-> | ->]]]; destruct L as [-> | [-> | [-> | ->]]]; destruct s; reflexivity.
Qed.

Lemma exponent_octets_range a : (1 <= exponent_octets a <= 4)%N.
Proof. unfold exponent_octets. destruct (a <=? 255), (a <=? 65535), (a <=? 16777215); lia. Qed.

Lemma written_octets s k0 ek0 e b c code e0 k ek n i :
  base_row c b code -> change_base b (S754_finite false k0 ek0) e = Ok (S754_finite false k ek, e0) ->
  normal k -> ek <= 971 -> Z.odd n = true -> 0 <= i -> Z.pos k = n * 2 ^ i ->
  (-104 < ek \/ ek = -104 /\ 2 ^ 52 < Z.pos k) -> (0 <= ek + i -> n * 2 ^ (ek + i) < 2 ^ 64) ->
  i32_min <= e0 <= i32_max ->
  let t := ek + i in let E := e0 + t / c in
  i32_min < E <= i32_max ->
  real_binary_content (S754_finite s k0 ek0) e b
  = Ok (first_octet (mk_parts s code (Z.to_N (t mod c)) E (Z.to_N n)) (exponent_octets (Z.abs E) - 1)
        :: (if (exponent_octets (Z.abs E) =? 4)%N then [4%N] else []) ++ exponent_bytes E ++ drop_zeroes (be_bytes 8 (Z.to_N n))).
Proof.
  intros HB HC Hk Hek O I Ek Heps Hbig He0 t E HE.
  assert (Pn: 0 < n) by (assert (0 < 2 ^ i) by (apply Z.pow_pos_nonneg; lia); nia).
  assert (Hn: n < 2 ^ 53). { destruct Hk as [_ Hk]. assert (1 <= 2 ^ i) by (assert (0 < 2 ^ i) by (apply Z.pow_pos_nonneg; lia); lia). nia. }
  assert (Hc: (0 < c <= 4) /\ In (c, b) [(1, 2%N); (3, 8%N); (4, 16%N)]
     /\ (if (b =? 2)%N then 1%N else if (b =? 8)%N then 3%N else 4%N) = Z.to_N c).
  { destruct HB as [X|[X|[X|[]]]]; injection X as <- <- <-; (split; [lia | split; [cbn; tauto | reflexivity]]). }
  destruct Hc as (Hc & HI & Hsh).
  assert (Hdm: t = c * (t / c) + t mod c /\ 0 <= t mod c < c) by (split; [apply Z.div_mod; lia | apply Z.mod_pos_bound; lia]).
  destruct Hdm as [Hdm Hmod].
  assert (Hj1: 0 <= steps c t <= 104 /\ (t < 0 -> steps c t = - (t / c)) /\ (0 <= t -> steps c t = 0 /\ 0 <= t / c)).
  { unfold steps. split; [|split].
    - split; [lia|]. assert (-104 <= t / c). { apply Z.div_le_lower_bound; unfold t; nia. } lia.
    - intros. assert (t / c < 0) by (apply Z.div_lt_upper_bound; lia). lia.
    - intros. assert (0 <= t / c) by (apply Z.div_pos; lia). lia. }
  destruct Hj1 as (Hj1 & Hneg & Hpos).
  set (j1 := Z.to_nat (steps c t)). assert (Ej1: Z.of_nat j1 = steps c t) by lia.
  set (u := t + c * steps c t).
  assert (Hu: 0 <= u /\ u mod c = t mod c /\ e0 - steps c t + u / c = E /\ n * 2 ^ u < 2 ^ 64).
  { unfold u. destruct (Z_lt_le_dec t 0) as [L|L].
    - rewrite (Hneg L). replace (t + c * - (t / c)) with (t mod c) by lia.
      rewrite Z.mod_mod by lia. rewrite (Z.div_small (t mod c) c) by assumption. repeat split; try (unfold E; lia).
      assert (2 ^ (t mod c) <= 2 ^ 4) by (apply Z.pow_le_mono_r; lia). assert (0 < 2 ^ (t mod c)) by (apply Z.pow_pos_nonneg; lia).
      change (2 ^ 4) with 16 in *. change (2 ^ 64) with 18446744073709551616. change (2 ^ 53) with 9007199254740992 in *. nia.
    - destruct (Hpos L) as [-> _]. replace (t + c * 0) with t by lia. repeat split; try (unfold E; lia); exact (Hbig L). }
  destruct Hu as (Hu0 & Hum & HuE & Hub).
  assert (Hu64: u < 64). { destruct (Z_lt_le_dec u 64); [assumption|]. assert (2 ^ 64 <= 2 ^ u) by (apply Z.pow_le_mono_r; lia). nia. }
  unfold real_binary_content, drop_floating_point. cbn [SFabs]. rewrite HC. cbn [bind].
  rewrite (drop_loop_ok c b n HI O j1 k ek i e0 1200); try assumption; try (unfold i32_min in *; lia).
  2:{ symmetry. exact Ej1. }
  cbn [bind]. rewrite Ej1. rewrite (f64_as_u64_odd k (ek + c * steps c t) n i); try assumption;
    try (replace (ek + c * steps c t + i) with u by (unfold u, t; lia); lia).
  replace (ek + c * steps c t + i) with u by (unfold u, t; lia).
  destruct (N.eqb_spec (Z.to_N (n * 2 ^ u)) 0) as [Z0|_].
  { apply (f_equal Z.of_N) in Z0. rewrite N_of_odd in Z0 by lia. assert (0 < 2 ^ u) by (apply Z.pow_pos_nonneg; lia). nia. }
  rewrite Hsh. rewrite (shift_loop_ok (Z.to_N c) n ltac:(lia) O Pn (Z.to_nat (u / c)) u (e0 - steps c t) 64);
    rewrite ?Z2N.id, ?Z2Nat.id by lia; try lia.
  cbn [bind]. rewrite Hum. rewrite scale_loop_ok by (assumption || lia). rewrite HuE.
  unfold i32_abs. rewrite as_i32_ok by (unfold i32_min, i32_max in *; lia). cbn [bind].
  pose proof (exponent_octets_range (Z.abs E)) as Hl.
  rewrite (first_octet_lor (negb (is_sign_positive (S754_finite s k0 ek0))) b code (Z.to_N (t mod c)) (exponent_octets (Z.abs E)) c HB ltac:(lia) Hl E (Z.to_N n)).
  cbn [is_sign_positive]. rewrite negb_involutive.
  fold (exponent_bytes E). f_equal. f_equal. destruct (N.eqb_spec (exponent_octets (Z.abs E)) 4) as [->|]; reflexivity.
Qed.

Lemma be_bytes_low l n : (l <= 4)%nat -> skipn (4 - l) (be_bytes 4 n) = be_bytes l n.
Proof.
  intros H. assert (l = 0 \/ l = 1 \/ l = 2 \/ l = 3 \/ l = 4)%nat as D by lia.
  destruct D as [-> | [-> | [-> | [-> | ->]]]]; cbn [be_bytes Nat.sub app skipn]; reflexivity.
Qed.

(** The exponent octets: two's complement of the value modulo 256^l. *)
Lemma exponent_bytes_spec e : exists l, N.of_nat l = exponent_octets (Z.abs e) /\ (1 <= l <= 4)%nat /\
  length (exponent_bytes e) = l /\ bytes_ok (exponent_bytes e) /\ twos (exponent_bytes e) mod pw l = e mod pw l.
Proof.
  pose proof (exponent_octets_range (Z.abs e)) as R.
  exists (N.to_nat (exponent_octets (Z.abs e))). set (o := exponent_octets (Z.abs e)) in *.
  assert (Hl: (1 <= N.to_nat o <= 4)%nat) by lia.
  unfold exponent_bytes. fold o. replace (N.to_nat (4 - o)) with (4 - N.to_nat o)%nat by lia.
  rewrite be_bytes_low by lia. set (l := N.to_nat o) in *. split; [lia|]. split; [exact Hl|].
  rewrite be_bytes_length. split; [reflexivity|]. split; [apply be_bytes_ok|].
  assert (HV: val (be_bytes l (Z.to_N (e mod 2 ^ 32))) = e mod pw l).
  { assert (D: (l = 1 \/ l = 2 \/ l = 3 \/ l = 4)%nat) by lia. clearbody l. clear - D.
    destruct D as [-> | [-> | [-> | ->]]]; cbn [be_bytes app]; rewrite ?val_cons, ?val_nil; cbn [length];
      change (pw 0) with 1; change (pw 1) with 256; change (pw 2) with 65536; change (pw 3) with 16777216; change (pw 4) with 4294967296;
      change (2 ^ 32) with 4294967296; lia. }
  rewrite twos_alt by apply be_bytes_ok. rewrite be_bytes_length, HV. pose proof (pw_pos l).
  destruct (twos _ <? 0).
  - replace (e mod pw l - pw l) with (e mod pw l + (-1) * pw l) by lia. rewrite Z.mod_add, Z.mod_mod by lia. reflexivity.
  - apply Z.mod_mod. lia.
Qed.

Lemma exponent_bytes_fits e : exponent_fits e -> twos (exponent_bytes e) = e.
Proof.
  intros F. destruct (exponent_bytes_spec e) as (l & L & Hl & Len & Hok & M).
  assert (R: in_signed l (twos (exponent_bytes e))).
  { rewrite <- Len. apply twos_range; [exact Hok|]. intro X. rewrite X in Len. cbn in Len. lia. }
  clear Len. unfold in_signed in R. unfold exponent_octets in L. unfold exponent_fits in F.
  destruct (Z.leb_spec (Z.abs e) 255); [assert (l = 1%nat) by lia; subst l; change (pw 1) with 256 in M; change (2 ^ (8 * Z.of_nat 1 - 1)) with 128 in R; lia|].
  destruct (Z.leb_spec (Z.abs e) 65535); [assert (l = 2%nat) by lia; subst l; change (pw 2) with 65536 in M; change (2 ^ (8 * Z.of_nat 2 - 1)) with 32768 in R; lia|].
  destruct (Z.leb_spec (Z.abs e) 16777215); [assert (l = 3%nat) by lia; subst l; change (pw 3) with 16777216 in M; change (2 ^ (8 * Z.of_nat 3 - 1)) with 8388608 in R; lia|].
  lia.
Qed.

Lemma exponent_bytes_misfit e : Z.abs e < 2 ^ 24 -> ~ exponent_fits e -> twos (exponent_bytes e) <> e.
Proof.
  intros A F X. destruct (exponent_bytes_spec e) as (l & L & Hl & Len & Hok & M).
  assert (R: in_signed l (twos (exponent_bytes e))).
  { rewrite <- Len. apply twos_range; [exact Hok|]. intro Y. rewrite Y in Len. cbn in Len. lia. }
  clear Len. rewrite X in R. unfold in_signed in R. unfold exponent_octets in L. apply F. unfold exponent_fits. change (2 ^ 24) with 16777216 in A.
  destruct (Z.leb_spec (Z.abs e) 255); [assert (l = 1%nat) by lia; subst l; change (2 ^ (8 * Z.of_nat 1 - 1)) with 128 in R; lia|].
  destruct (Z.leb_spec (Z.abs e) 65535); [assert (l = 2%nat) by lia; subst l; change (2 ^ (8 * Z.of_nat 2 - 1)) with 32768 in R; lia|].
  destruct (Z.leb_spec (Z.abs e) 16777215); [assert (l = 3%nat) by lia; subst l; change (2 ^ (8 * Z.of_nat 3 - 1)) with 8388608 in R; lia|].
  lia.
Qed.

Lemma drop_zeroes_spec bs : bytes_ok bs -> bytes_ok (drop_zeroes bs) /\ val (drop_zeroes bs) = val bs
  /\ (length (drop_zeroes bs) <= length bs)%nat.
Proof.
  induction bs as [|b r IH]; intros H; cbn [drop_zeroes]; [auto|].
  destruct (N.eqb_spec b 0) as [->|Ne]; [|auto].
  apply Forall_cons_iff in H as [_ H]. destruct (IH H) as (A & B & C). split; [exact A|]. split; [|cbn; lia].
  rewrite B, val_cons. lia.
Qed.

Definition mantissa_bytes (n : Z) : bytes := drop_zeroes (be_bytes 8 (Z.to_N n)).
Lemma mantissa_bytes_spec n : 0 < n < 2 ^ 64 ->
  bytes_ok (mantissa_bytes n) /\ val (mantissa_bytes n) = n /\ (1 <= blen (mantissa_bytes n) <= 8)%N /\ mantissa_bytes n <> [].
Proof.
  intros H. unfold mantissa_bytes. destruct (drop_zeroes_spec (be_bytes 8 (Z.to_N n))) as (A & B & C); [apply be_bytes_ok|].
  rewrite be_bytes_length in C. rewrite be_bytes_val in B by (change (pw 8) with (2 ^ 64); lia).
  assert (D: drop_zeroes (be_bytes 8 (Z.to_N n)) <> []) by (intro X; rewrite X, val_nil in B; lia).
  split; [exact A|]. split; [lia|]. split; [|exact D].
  unfold blen. destruct (drop_zeroes _); [congruence|]. cbn [length] in *. lia.
Qed.

Lemma change_base_2 m e : change_base 2 m e = Ok (m, e).
Proof. reflexivity. Qed.

Lemma change_base_other c b code k0 ek0 e : base_row c b code -> b <> 2%N -> i32_min < e <= i32_max ->
  -1021 <= Z.quot e c <= 1023 -> bounded 53 1024 k0 (ek0 + Z.quot e c) = true ->
  change_base b (S754_finite false k0 ek0) e = Ok (S754_finite false k0 (ek0 + Z.quot e c), Z.quot e c).
Proof.
  intros HB Hb He Hq Hk. unfold change_base.
  assert (HD: (if (b =? 8)%N then 3 else if (b =? 16)%N then 4 else 0) = c /\ 0 < c).
  { destruct HB as [X|[X|[X|[]]]]; injection X as <- <- <-; [congruence | split; [reflexivity | lia] ..]. }
  destruct HD as [-> Hc]. destruct (Z.eqb_spec c 0); [lia|]. unfold i32_abs.
  rewrite as_i32_ok by (unfold i32_min, i32_max in *; lia). cbn [bind].
  assert (HQ: Z.abs e / c * (if 0 <? e then 1 else -1) = Z.quot e c).
  { destruct (Z.ltb_spec 0 e).
    - rewrite Z.abs_eq, Z.quot_div_nonneg by lia. lia.
    - rewrite Z.abs_neq by lia. replace e with (- - e) at 2 by lia. rewrite Z.quot_opp_l, Z.quot_div_nonneg by lia. lia. }
  rewrite HQ. rewrite powi_two by lia. rewrite fmul_pow2 by assumption. reflexivity.
Qed.

(** *** The value read back *)

Lemma base_row_facts c b code : base_row c b code ->
  0 < c <= 4 /\ (code <= 2)%N /\ log_base code = c /\ base_number code = b /\ base_of code = 2 ^ c.
Proof. intros HB. destruct HB as [X|[X|[X|[]]]]; injection X as <- <- <-; repeat split; lia. Qed.

Lemma pow_base c e : 0 <= c -> (inject_Z (2 ^ c) ^ e == 2 ^ (c * e))%Q.
Proof. intros H. rewrite Zpower_Qpower by exact H. rewrite Qpower_mult. reflexivity. Qed.

(** Reading the octets of the writer, when the exponent takes at most three octets. *)
Lemma written_read s c b code n f e :
  base_row c b code -> 0 < n < 2 ^ 53 -> 0 <= f <= 3 -> Z.abs e < 2 ^ 24 ->
  let p := mk_parts s code (Z.to_N f) (twos (exponent_bytes e)) (Z.to_N n) in
  let cb := first_octet p (exponent_octets (Z.abs e) - 1) :: exponent_bytes e ++ mantissa_bytes n in
  bytes_ok cb /\ (blen cb <= 12)%N /\ short_form p (exponent_bytes e) (mantissa_bytes n) cb /\
  (forall h, decode_real h cb = Ok (RBinary (scaled (if s then - n else n) (Z.to_N f)) 2 (twos (exponent_bytes e) * c) b)).
Proof.
  intros HB Hn Hf He p cb. destruct (base_row_facts c b code HB) as (Hc & Hcode & Hlog & Hnum & _).
  destruct (mantissa_bytes_spec n) as (Mok & Mval & Mlen & Mne); [lia|].
  destruct (exponent_bytes_spec e) as (l & L & Hl & Len & Eok & _).
  assert (Hl3: (l <= 3)%nat).
  { unfold exponent_octets in L. change (2 ^ 24) with 16777216 in He. destruct (Z.leb_spec (Z.abs e) 255), (Z.leb_spec (Z.abs e) 65535), (Z.leb_spec (Z.abs e) 16777215); lia. }
  assert (Ene: exponent_bytes e <> []) by (intro X; rewrite X in Len; cbn in Len; lia).
  assert (IP: in_parts p (exponent_bytes e) (mantissa_bytes n)).
  { unfold in_parts, p; cbn [bp_base_code bp_factor bp_exponent bp_number]. unfold val in Mval.
    split; [lia|]. split; [lia|]. repeat (split; [assumption|]). split; [reflexivity|]. lia. }
  assert (Hoct: (1 <= exponent_octets (Z.abs e) <= 3)%N) by lia.
  assert (Eb: blen (exponent_bytes e) = exponent_octets (Z.abs e)) by (unfold blen; lia).
  assert (HR: i32_min <= bp_exponent p * log_base (bp_base_code p) <= i32_max).
  { cbn [p bp_exponent bp_base_code]. rewrite Hlog.
    assert (R: in_signed l (twos (exponent_bytes e))) by (rewrite <- Len; apply twos_range; assumption).
    assert (B: - 2 ^ 23 <= twos (exponent_bytes e) < 2 ^ 23).
    { unfold in_signed in R. assert (2 ^ (8 * Z.of_nat l - 1) <= 2 ^ 23) by (apply Z.pow_le_mono_r; lia). lia. }
    unfold i32_min, i32_max. change (2 ^ 31) with 2147483648. change (2 ^ 23) with 8388608 in B. nia. }
  split; [|split; [|split]].
  - unfold cb. constructor.
    + destruct (first_octet_parts p (exponent_octets (Z.abs e) - 1)) as (_ & _ & _ & _ & _ & F); cbn; try assumption; try lia.
    + apply Forall_app; split; assumption.
  - unfold cb. rewrite blen_cons, blen_app. lia.
  - split; [exact IP|]. exists (exponent_octets (Z.abs e) - 1)%N. split; [lia|]. split; [lia|reflexivity].
  - intros h. unfold cb. rewrite decode_parts; [|exact IP | lia | lia | exact HR].
    unfold read_as, p; cbn [bp_negative bp_base_code bp_factor bp_exponent].
    destruct (N.ltb_spec 8 (blen (mantissa_bytes n))); [lia|]. rewrite Mval, wrap_i64_small by lia.
    replace (s && (n =? - 2 ^ 63)) with false by (symmetry; apply andb_false_iff; right; apply Z.eqb_neq; lia).
    rewrite Hlog, Hnum. reflexivity.
Qed.

(** Numbers of the form held by [RBinary]. *)
Lemma scaled_value (s : bool) n f base e : 0 <= f <= 3 -> 0 < n < 2 ^ 53 ->
  holds (RBinary (scaled (if s then - n else n) (Z.to_N f)) 2 e base) (dy (if s then - n else n) (f + e)).
Proof.
  intros Hf Hn. destruct (scaled_exact (if s then - n else n) (Z.to_N f)) as (q & E & Eq); [lia | destruct s; lia|].
  unfold holds, real_value. rewrite E. eexists. split; [reflexivity|]. rewrite Eq, Z2N.id by lia.
  change (inject_Z (Z.of_N 2)) with 2%Q. apply dy_scale.
Qed.

(** *** Mantissas which are too small or too large *)

Lemma dy_compare m e m' e' : (dy m e < dy m' e')%Q <-> m * 2 ^ (e - Z.min e e') < m' * 2 ^ (e' - Z.min e e').
Proof.
  set (l := Z.min e e'). rewrite <- (dy_lt _ _ l). rewrite !dy_shift by lia.
  replace (l + (e - l)) with e by lia. replace (l + (e' - l)) with e' by lia. reflexivity.
Qed.

Lemma epsilon_iff k ek : bounded 53 1024 k ek = true ->
  (f64_gt (S754_finite false k ek) f64_epsilon = true <-> (2 ^ (-52) < dy (Z.pos k) ek)%Q).
Proof.
  intros HB. assert (E: (2 ^ (-52) == dy 1 (-52))%Q) by (unfold dy; ring). rewrite E, dy_compare.
  pose proof (bounded_cases _ _ HB) as [HL HC]. split.
  - intros H. apply above_epsilon in H as (Hk & H1 & H2); [|exact HB]. unfold normal in Hk.
    destruct (Z_le_gt_dec ek (-52)) as [L|L].
    + rewrite Z.min_r by lia. rewrite Z.sub_diag. destruct (Z.eq_dec ek (-104)) as [->|Ne].
      * change (-52 - -104) with 52. specialize (H2 eq_refl). lia.
      * assert (2 ^ (-52 - ek) <= 2 ^ 51) by (apply Z.pow_le_mono_r; lia). change (2 ^ 51) with 2251799813685248 in *.
        change (2 ^ 52) with 4503599627370496 in *. lia.
    + rewrite Z.min_l by lia. replace (-52 - -52) with 0 by lia.
      assert (0 < 2 ^ (ek - -52)) by (apply Z.pow_pos_nonneg; lia). change (2 ^ 52) with 4503599627370496 in *. nia.
  - intros H. apply above_epsilon_intro. destruct (Z_le_gt_dec ek (-52)) as [L|L]; [|lia].
    rewrite Z.min_r in H by lia. rewrite Z.sub_diag in H. change (2 ^ 0) with 1 in H.
    assert (Z.pos k < 2 ^ 53). { destruct HC as [[[_ HC] _]|[HC _]]; [exact HC|]. change (2 ^ 53) with (2 * 2 ^ 52). lia. }
    assert (-104 <= ek). { destruct (Z_le_gt_dec (-104) ek); [assumption|]. assert (2 ^ 53 <= 2 ^ (-52 - ek)) by (apply Z.pow_le_mono_r; lia). lia. }
    destruct (Z.eq_dec ek (-104)) as [->|Ne]; [|lia]. right. split; [reflexivity|]. change (-52 - -104) with 52 in H. lia.
Qed.

Lemma drop_loop_stop fuel b m e : fuel <> O -> f64_gt (SFabs m) f64_epsilon = false \/ has_fract m = false ->
  drop_loop fuel b m e = Ok (m, e).
Proof.
  intros F H. destruct fuel as [|n]; [congruence|]. cbn [drop_loop]. destruct (f64_gt _ _); [|reflexivity].
  destruct H as [H| ->]; [discriminate | reflexivity].
Qed.

Lemma small_panics s k ek e : bounded 53 1024 k ek = true -> f64_gt (S754_finite false k ek) f64_epsilon = false ->
  real_binary_content (S754_finite s k ek) e 2 = Panic.
Proof.
  intros HB H. unfold real_binary_content, drop_floating_point. cbn [SFabs]. rewrite change_base_2. cbn [bind].
  rewrite drop_loop_stop by (discriminate || (left; exact H)). cbn [bind]. pose proof (bounded_cases _ _ HB) as [HL HC].
  assert (Hk: Z.pos k < 2 ^ 53). { destruct HC as [[[_ HC] _]|[HC _]]; [exact HC|]. change (2 ^ 53) with (2 * 2 ^ 52). lia. }
  assert (Hek: ek <= -104). { destruct (Z_le_gt_dec ek (-104)); [assumption|]. rewrite above_epsilon_intro in H by lia. discriminate. }
  assert (T: f64_trunc (S754_finite false k ek) = 0).
  { cbn [f64_trunc cond_Zopp]. destruct ek as [|d|d]; [lia | lia|]. apply Z.div_small.
    assert (2 ^ 53 <= 2 ^ Z.pos d) by (apply Z.pow_le_mono_r; lia). lia. }
  unfold f64_as_u64. rewrite T. reflexivity.
Qed.

Definition ones : bytes := repeat 255%N 8.
Lemma large_octets s k ek e n i : Z.pos k = n * 2 ^ i -> 0 <= i -> 0 <= ek + i -> 0 < n -> 2 ^ 64 <= n * 2 ^ (ek + i) ->
  Z.odd n = true -> f64_gt (S754_finite false k ek) f64_epsilon = true -> i32_min < e <= i32_max ->
  real_binary_content (S754_finite s k ek) e 2
  = Ok (first_octet (mk_parts s 0 0 e (2 ^ 64 - 1)) (exponent_octets (Z.abs e) - 1)
        :: (if (exponent_octets (Z.abs e) =? 4)%N then [4%N] else []) ++ exponent_bytes e ++ ones).
Proof.
  intros Ek I T Pn L O H He. unfold real_binary_content, drop_floating_point. cbn [SFabs]. rewrite change_base_2. cbn [bind].
  assert (HF: has_fract (S754_finite false k ek) = false) by (rewrite (has_fract_odd false k ek n i) by assumption; lia).
  rewrite drop_loop_stop by (discriminate || (right; exact HF)). cbn [bind].
  rewrite (f64_as_u64_large k ek n i) by assumption. change (2 ^ 64 - 1 =? 0)%N with false. cbv iota.
  change (2 =? 2)%N with true. cbv iota. change (shift_loop 64 1 (2 ^ 64 - 1) e) with (Ok (A := N * Z) ((2 ^ 64 - 1)%N, e)). cbn [bind].
  change (scale_loop 5 (2 ^ 64 - 1) 0) with ((2 ^ 64 - 1)%N, 0%N). cbv iota beta.
  unfold i32_abs. rewrite as_i32_ok by (unfold i32_min, i32_max in *; lia). cbn [bind].
  pose proof (exponent_octets_range (Z.abs e)) as Hl.
  assert (HB: base_row 1 2 0) by (left; reflexivity).
  pose proof (first_octet_lor (negb (is_sign_positive (S754_finite s k ek))) 2 0 0 (exponent_octets (Z.abs e)) 1 HB ltac:(lia) Hl e (2 ^ 64 - 1)%N) as F.
  change (2 =? 2)%N with true in F. cbv iota in F. rewrite F. cbn [is_sign_positive]. rewrite negb_involutive. change (drop_zeroes (be_bytes 8 (2 ^ 64 - 1))) with ones.
  fold (exponent_bytes e). f_equal. f_equal. destruct (N.eqb_spec (exponent_octets (Z.abs e)) 4) as [->|]; reflexivity.
Qed.

(** *** Mantissas which the change of base makes too small or too large *)

Lemma drop_endless fuel b s e : (0 < b < 2 ^ 32)%N -> forall v, drop_loop fuel b (S754_infinity s) e <> Ok v.
Proof.
  intros Hb. revert e. induction fuel as [|n IH]; intros e v H; [discriminate|]. cbn [drop_loop SFabs] in H.
  change (f64_gt (S754_infinity false) f64_epsilon) with true in H. cbn [has_fract] in H.
  destruct (as_i32 (e - 1)) as [e'| | |]; try discriminate. cbn [bind] in H.
  assert (E : fmul (S754_infinity s) (f64_of_Z (Z.of_N b)) = S754_infinity s).
  { destruct (f64_of_small (Z.of_N b)) as (k & j & E & _); [lia|]. rewrite E. replace (Z.of_N b <? 0) with false by lia. cbn. destruct s; reflexivity. }
  rewrite E in H. exact (IH _ _ H).
Qed.

Lemma change_base_8_16 c b code m e : base_row c b code -> b <> 2%N -> i32_min < e <= i32_max ->
  change_base b m e = Ok (fmul m (powi (f64_of_Z 2) (Z.quot e c)), Z.quot e c).
Proof.
  intros HB Hb He. unfold change_base.
  assert (HD: (if (b =? 8)%N then 3 else if (b =? 16)%N then 4 else 0) = c /\ 0 < c).
  { destruct HB as [X|[X|[X|[]]]]; injection X as <- <- <-; [congruence | split; [reflexivity | lia] ..]. }
  destruct HD as [-> Hc]. destruct (Z.eqb_spec c 0); [lia|]. unfold i32_abs.
  rewrite as_i32_ok by (unfold i32_min, i32_max in *; lia). cbn [bind].
  assert (HQ: Z.abs e / c * (if 0 <? e then 1 else -1) = Z.quot e c).
  { destruct (Z.ltb_spec 0 e).
    - rewrite Z.abs_eq, Z.quot_div_nonneg by lia. lia.
    - rewrite Z.abs_neq by lia. replace e with (- - e) at 2 by lia. rewrite Z.quot_opp_l, Z.quot_div_nonneg by lia. lia. }
  rewrite HQ. reflexivity.
Qed.

Lemma tiny_content m e b m' e' : change_base b (SFabs m) e = Ok (m', e') ->
  m' = S754_zero false \/ m' = S754_nan \/ (exists k ek, m' = S754_finite false k ek /\ Z.pos k < 2 ^ 54 /\ ek <= -104 /\ f64_gt m' f64_epsilon = false) ->
  real_binary_content m e b = Panic.
Proof.
  intros HC H. unfold real_binary_content, drop_floating_point. rewrite HC. cbn [bind].
  assert (G : f64_gt (SFabs m') f64_epsilon = false) by (destruct H as [-> | [-> | (k & ek & -> & _ & _ & G)]]; [reflexivity | reflexivity | exact G]).
  rewrite drop_loop_stop by (discriminate || (left; exact G)). cbn [bind].
  assert (T: f64_trunc m' = 0).
  { destruct H as [-> | [-> | (k & ek & -> & Hk & Hek & _)]]; [reflexivity | reflexivity|].
    cbn [f64_trunc cond_Zopp]. destruct ek as [|d|d]; [lia | lia|]. apply Z.div_small.
    assert (2 ^ 54 <= 2 ^ Z.pos d) by (apply Z.pow_le_mono_r; lia). lia. }
  assert (U : f64_as_u64 m' = 0%N).
  { destruct H as [-> | [-> | (k & ek & -> & _)]]; [reflexivity | reflexivity|]. unfold f64_as_u64. rewrite T. reflexivity. }
  rewrite U. reflexivity.
Qed.

Lemma endless_content m e b e' cb : (0 < b < 2 ^ 32)%N -> change_base b (SFabs m) e = Ok (S754_infinity false, e') ->
  real_binary_content m e b <> Ok cb.
Proof.
  intros Hb HC H. unfold real_binary_content, drop_floating_point in H. rewrite HC in H. cbn [bind] in H.
  destruct (drop_loop 1200 b (S754_infinity false) e') as [v| | |] eqn:E; try discriminate. exact (drop_endless _ _ _ _ Hb _ E).
Qed.

Lemma saturated_octets s k0 ek0 e b c code e0 k ek n i : base_row c b code ->
  change_base b (S754_finite false k0 ek0) e = Ok (S754_finite false k ek, e0) ->
  Z.pos k = n * 2 ^ i -> 0 <= i -> 0 <= ek + i -> 0 < n -> 2 ^ 64 <= n * 2 ^ (ek + i) ->
  Z.odd n = true -> i32_min < e0 <= i32_max ->
  real_binary_content (S754_finite s k0 ek0) e b
  = Ok (first_octet (mk_parts s code 0 e0 (2 ^ 64 - 1)) (exponent_octets (Z.abs e0) - 1)
        :: (if (exponent_octets (Z.abs e0) =? 4)%N then [4%N] else []) ++ exponent_bytes e0 ++ ones).
Proof.
  intros HB HC Ek I T Pn L O He. unfold real_binary_content, drop_floating_point. cbn [SFabs]. rewrite HC. cbn [bind].
  assert (HF: has_fract (S754_finite false k ek) = false) by (rewrite (has_fract_odd false k ek n i) by assumption; lia).
  rewrite drop_loop_stop by (discriminate || (right; exact HF)). cbn [bind].
  rewrite (f64_as_u64_large k ek n i) by assumption. change (2 ^ 64 - 1 =? 0)%N with false. cbv iota.
  assert (SL : shift_loop 64 (if (b =? 2)%N then 1 else if (b =? 8)%N then 3 else 4)%N (2 ^ 64 - 1) e0 = Ok ((2 ^ 64 - 1)%N, e0)).
  { destruct HB as [X|[X|[X|[]]]]; injection X as <- <- <-; reflexivity. }
  rewrite SL. cbn [bind].
  change (scale_loop 5 (2 ^ 64 - 1) 0) with ((2 ^ 64 - 1)%N, 0%N). cbv iota beta.
  unfold i32_abs. rewrite as_i32_ok by (unfold i32_min, i32_max in *; lia). cbn [bind].
  pose proof (exponent_octets_range (Z.abs e0)) as Hl.
  pose proof (first_octet_lor (negb (is_sign_positive (S754_finite s k0 ek0))) b code 0 (exponent_octets (Z.abs e0)) c HB ltac:(lia) Hl e0 (2 ^ 64 - 1)%N) as F.
  rewrite F. cbn [is_sign_positive]. rewrite negb_involutive. change (drop_zeroes (be_bytes 8 (2 ^ 64 - 1))) with ones.
  fold (exponent_bytes e0). f_equal. f_equal. destruct (N.eqb_spec (exponent_octets (Z.abs e0)) 4) as [->|]; reflexivity.
Qed.
