(** C94: [f32] through REAL and back. *)
From Coq Require Import SpecFloat QArith Qpower Qabs Lqa.
From Verif Require Import Base MHeader MEncode SHeader PArith PHeader PEncode MBer SBer PBer
  MInt SInt PCodec PInt MOid SOid POid PTime MText SText PText MReal PFloat SReal PReal PropTime PropReal PDecimal PropDecimal PRound PropReals PropNumber
  PropNear MF32 PF32.
Local Open Scope Z_scope.

(** A number closer than 2^-41 to one of 24 bits is rounded to it. *)
Lemma round24_near s m em k e : bounded 24 128 k e = true -> near (dy (Z.pos m) em) (dy (Z.pos k) e) 41 -> binary_round 24 128 s m em = S754_finite s k e.
Proof.
  intros B N. unfold bounded, canonical_mantissa in B. apply andb_true_iff in B as [C L]. apply Zeq_bool_eq in C. apply Z.leb_le in L.
  pose proof (digits_pos k) as (K0 & K1 & K2). set (dk := Z.pos (digits2_pos k)) in *.
  assert (Hdk : dk <= 24 /\ -149 <= e) by (unfold fexp, emin in C; lia).
  destruct (round24_form s m em) as (m' & e' & -> & Ev & He). cbn [Zdigits2] in He.
  destruct (round24_any s (Z.pos m') e' loc_Exact ltac:(lia) He) as (q & _ & Ex & Q). cbn [Zdigits2] in Ex, Q. destruct (Ex eq_refl) as [Ex1 _]. clear Ex.
  pose proof (digits_pos m') as (D0 & D1 & D2). set (d := Z.pos (digits2_pos m')) in *. set (f := fexp 24 128 (d + e')) in *.
  (* the distance in units of 2^e *)
  set (Y := dy (Z.pos k) e) in *. set (X := dy (Z.pos m') e'). unfold near in N. rewrite <- Ev in N. fold X in N. apply near_bounds in N as [N1 N2].
  change (2 ^ 41)%Q with (2199023255552 # 1)%Q in *.
  assert (YU : (Y <= dy 1 e * (16777216 # 1))%Q).
  { unfold Y. setoid_replace (dy 1 e * (16777216 # 1))%Q with (dy (2 ^ 24) e) by (unfold dy; change (inject_Z (2 ^ 24)) with (16777216 # 1)%Q; ring).
    apply dy_le. assert (2 ^ dk <= 2 ^ 24) by (apply Z.pow_le_mono_r; lia). lia. }
  pose proof (dy_pos 1 e ltac:(lia)) as PU. pose proof (dy_pos 1 (e - 1) ltac:(lia)) as PU1.
  assert (HU : (dy 1 e == 2 * dy 1 (e - 1))%Q).
  { assert (H : (dy 1 (e - 1 + 1) == dy (2 ^ 1) (e - 1))%Q) by (symmetry; apply dy_pow; lia). replace (e - 1 + 1) with e in H by lia. rewrite H.
    unfold dy. change (inject_Z (2 ^ 1)) with 2%Q. ring. }
  (* the leading bit *)
  assert (M1 : d + e' <= dk + e).
  { assert (dy 1 (e' + (d - 1)) < dy 1 (e + dk))%Q as H; [|apply dy_one_lt in H; lia].
    rewrite <- !dy_pow by lia. apply Qle_lt_trans with X; [apply dy_le; exact D1|].
    apply Qlt_le_trans with (dy (Z.pos k + 1) e); [|apply dy_le; lia]. rewrite dy_plus. fold Y. lra. }
  assert (M2 : dk + e - 1 <= d + e').
  { assert (dy 1 (e + (dk - 1) - 1) < dy 1 (e' + d))%Q as H; [|apply dy_one_lt in H; lia].
    apply Qle_lt_trans with (dy 1 (e - 1 + (dk - 1))); [replace (e - 1 + (dk - 1)) with (e + (dk - 1) - 1) by lia; apply Qle_refl|].
    rewrite <- !dy_pow by lia. apply Qlt_le_trans with X; [|apply dy_le; lia].
    assert (H : (dy (2 ^ (dk - 1)) (e - 1) * 2 <= Y)%Q).
    { setoid_replace (dy (2 ^ (dk - 1)) (e - 1) * 2)%Q with (dy (2 ^ (dk - 1)) e); [apply dy_le; exact K1|]. change 2%Q with (2 ^ 1)%Q. rewrite dy_scale. replace (e - 1 + 1) with e by lia. reflexivity. }
    assert (0 < Y)%Q by (apply dy_pos; lia). lra. }
  assert (Hf : f = e \/ f = e - 1) by (unfold f, fexp, emin in *; lia).
  assert (Hfe : 0 <= f - e') by (unfold f in *; lia).
  (* both numbers are multiples of 2^f *)
  assert (Eq : q = Z.pos k * 2 ^ (e - f)).
  { assert (A : (dy q f - X <= dy 1 f * (1 # 2))%Q /\ (X - dy q f <= dy 1 f * (1 # 2))%Q).
    { assert (Eqf : (dy q f == dy (q * 2 ^ (f - e')) e')%Q) by (rewrite dy_shift by lia; replace (e' + (f - e')) with f by lia; reflexivity).
      assert (E1 : (dy 1 f == dy (2 ^ (f - e')) e')%Q) by (rewrite dy_pow by lia; replace (e' + (f - e')) with f by lia; reflexivity).
      rewrite Eqf, E1. unfold X.
      assert (G1 : 2 * (q * 2 ^ (f - e')) <= 2 * Z.pos m' + 2 ^ (f - e')) by lia. assert (G2 : 2 * Z.pos m' <= 2 * (q * 2 ^ (f - e')) + 2 ^ (f - e')) by lia.
      apply (dy_le _ _ e') in G1, G2. rewrite dy_plus in G1, G2.
      assert (G3 : forall z, (dy (2 * z) e' == 2 * dy z e')%Q) by (intros; unfold dy; rewrite inject_Z_mult; change (inject_Z 2) with 2%Q; ring).
      rewrite !G3 in G1, G2. split; lra. }
    assert (EY : (Y == dy (Z.pos k * 2 ^ (e - f)) f)%Q) by (rewrite dy_shift by lia; replace (f + (e - f)) with e by lia; reflexivity).
    assert (Small : (X - Y < dy 1 f * (1 # 2))%Q /\ (Y - X < dy 1 f * (1 # 2))%Q).
    { destruct Hf as [-> | ->]; split; lra. }
    set (z := Z.pos k * 2 ^ (e - f)) in *. rewrite EY in Small.
    assert (L1 : q < z + 1) by (apply (dy_lt _ _ f); rewrite dy_plus; lra). assert (L2 : z < q + 1) by (apply (dy_lt _ _ f); rewrite dy_plus; lra). lia. }
  destruct Q as [[-> _]|(K & EK & Hf' & Q1 & Q2 & Q3)].
  { assert (0 < 2 ^ (e - f)) by (apply Z.pow_pos_nonneg; lia). nia. }
  assert (ED : Z.pos (digits2_pos K) + EK = dk + e).
  { assert (Z1 : (K * Z.to_pos (2 ^ (EK - f)) = k * Z.to_pos (2 ^ (e - f)))%positive).
    { apply Pos2Z.inj. rewrite !Pos2Z.inj_mul, !Z2Pos.id by (apply Z.pow_pos_nonneg; lia). lia. }
    apply (f_equal (fun p => Z.pos (digits2_pos p))) in Z1. rewrite !digits_mul_pow in Z1 by lia. fold dk in Z1. lia. }
  unfold canonical_mantissa in Q2. apply Zeq_bool_eq in Q2. rewrite ED, C in Q2. subst EK.
  rewrite Eq in Q1. apply Z.mul_reg_r in Q1; [|apply Z.pow_nonzero; lia]. injection Q1 as ->.
  rewrite Q3. destruct (Z.leb_spec e 104); [reflexivity|lia].
Qed.

(** The 24 bits in 53. *)
Lemma f32_widen s k e : bounded 24 128 k e = true -> exists k' e', f32_as_f64 (S754_finite s k e) = S754_finite s k' e' /\ bounded 53 1024 k' e' = true
  /\ (dy (Z.pos k') e' == dy (Z.pos k) e)%Q /\ (2 ^ (-960) <= dy (Z.pos k) e)%Q /\ (dy (Z.pos k) e <= 2 ^ 1022)%Q.
Proof.
  intros B. unfold bounded, canonical_mantissa in B. apply andb_true_iff in B as [C L]. apply Zeq_bool_eq in C. apply Z.leb_le in L.
  pose proof (digits_pos k) as (K0 & K1 & K2). set (dk := Z.pos (digits2_pos k)) in *.
  assert (Hdk : dk <= 24 /\ -149 <= e <= 104) by (unfold fexp, emin in C; lia). assert (KU : 2 ^ dk <= 2 ^ 24) by (apply Z.pow_le_mono_r; lia).
  change (2 ^ 24) with 16777216 in KU. destruct (normal_form (Z.pos k)) as (k' & j & Nk & Hj & Ek); [change (2 ^ 53) with 9007199254740992; lia|].
  assert (B' : bounded 53 1024 k' (e - j) = true) by (apply bounded_normal; [exact Nk|lia]).
  exists k', (e - j). split.
  - cbn [f32_as_f64]. apply binary_round_canonical; [exact B'| |].
    + intros H. assert (j = 0) by lia. subst j. rewrite Ek. replace (e - 0 - e) with 0 by lia. change (2 ^ 0) with 1. lia.
    + intros _. replace (e - (e - j)) with j by lia. exact Ek.
  - split; [exact B'|]. split; [rewrite Ek, dy_shift by lia; replace (e - j + j) with e by lia; reflexivity|].
    assert (O : forall z, (dy 1 z == 2 ^ z)%Q) by (intros; unfold dy; ring). rewrite <- !O. split.
    + apply Qle_trans with (dy 1 e); [|apply dy_le; lia]. replace e with (-960 + (e + 960)) by lia. rewrite <- dy_pow by lia. apply dy_le.
      assert (0 < 2 ^ (e + 960)) by (apply Z.pow_pos_nonneg; lia). lia.
    + apply Qle_trans with (dy (2 ^ 24) e); [apply dy_le; change (2 ^ 24) with 16777216; lia|]. rewrite dy_pow by lia.
      replace 1022 with (e + 24 + (1022 - (e + 24))) by lia. rewrite <- (dy_pow (1022 - (e + 24))) by lia. apply dy_le.
      assert (0 < 2 ^ (1022 - (e + 24))) by (apply Z.pow_pos_nonneg; lia). lia.
Qed.

(** ** The four parsers of [f32] *)

Lemma f32_content_iff h cb v : h_length h = Definite (blen cb) ->
  ((exists r, f32_content h cb = Ok (r, v)) <-> h_constructed h = false /\ exists r, read_content cb = Ok r /\ real_f32 r = v).
Proof.
  intros E. unfold f32_content. split.
  - intros [r H]. apply bind_ok in H as ((rem, x) & H & H2). destruct (proj1 (real_content_iff h cb x E) (ex_intro _ rem H)) as [A B].
    split; [exact A|]. exists x. split; [exact B | congruence].
  - intros (A & x & B & C). destruct (proj2 (real_content_iff h cb x E) (conj A B)) as [rem H]. exists rem. rewrite H. cbn [bind]. congruence.
Qed.

Lemma f32_accept i rem v : bytes_ok i ->
  let accepted := exists c content, starts_with_object c false 9 content i rem /\ exists r, read_content content = Ok r /\ real_f32 r = v in
  (parse_ber f32_codec i = Ok (rem, v) <-> accepted) /\ (from_ber f32_codec i = Ok (rem, v) <-> accepted)
  /\ (parse_der f32_codec i = Ok (rem, v) <-> accepted) /\ (from_der f32_codec i = Ok (rem, v) <-> accepted).
Proof.
  intros Hi. set (P := fun cb v => exists r, read_content cb = Ok r /\ real_f32 r = v).
  apply (prim_accept f32_codec 9 P P); try reflexivity.
  - intros x. reflexivity.
  - intros h d x _ E. apply f32_content_iff. exact E.
  - intros h d x _ E. apply f32_content_iff. exact E.
  - intros h d x _ E. unfold P. rewrite <- (f32_content_iff h d x E). cbn [ber_content check_constraints f32_codec]. split; [intros [_ H]; exact H|].
    intros H. split; [|exact H]. apply f32_content_iff in H as [H _]; [|exact E].
    unfold real_check, assert_primitive. cbn [any_header]. rewrite H, E. reflexivity.
  - intros h d r x E. cbn [ber_content f32_codec] in E. unfold f32_content, real_content, assert_primitive in E. destruct (h_constructed h); [discriminate | reflexivity].
  - exact Hi.
Qed.

Lemma f32_all_read i rem c content r v : bytes_ok i -> starts_with_object c false 9 content i rem ->
  read_content content = Ok r -> real_f32 r = v -> all_read f32_codec i rem v.
Proof.
  intros Hi S E F. destruct (f32_accept i rem v Hi) as (A & B & C & D).
  assert (X: exists c content, starts_with_object c false 9 content i rem /\ exists r, read_content content = Ok r /\ real_f32 r = v) by eauto 6.
  repeat split; [apply A | apply B | apply C | apply D]; exact X.
Qed.

(** What is written reads back as [x'], with every parser and whatever follows. *)
Definition f32_reads_back (x x' : spec_float) : Prop :=
  exists enc, to_vec (tober_f32 x) = Ok enc /\ bytes_ok enc /\ forall y, bytes_ok y -> all_read f32_codec (enc ++ y) y x'.

Lemma f32_reads_back_by x r cb x' : real_new (f32_as_f64 x) = Ok r -> real_write r = Ok (cb, blen cb) -> (blen cb < 2 ^ 64)%N -> bytes_ok cb ->
  (exists r', read_content cb = Ok r' /\ real_f32 r' = x') -> f32_reads_back x x'.
Proof.
  intros N W L O (r' & R & F). destruct (written_real r cb W L O) as (enc & E & Oe & S).
  exists enc. unfold tober_f32, tober_f64. rewrite N. split; [exact E|]. split; [exact Oe|].
  intros y Hy. eapply f32_all_read; [|apply S | exact R | exact F]. apply bytes_ok_app. split; assumption.
Qed.

(** Every [f32] comes back equal; of a zero the sign is lost. *)
Theorem C94_f32 (x : spec_float) : valid_binary 24 128 x = true -> f32_reads_back x (match x with S754_zero _ => S754_zero false | _ => x end).
Proof.
  intros V. destruct x as [s|s| |s k e].
  - apply (f32_reads_back_by _ RZero []); try reflexivity; [constructor|]. exists RZero. split; reflexivity.
  - destruct s; [apply (f32_reads_back_by _ RNegInfinity [65%N]) | apply (f32_reads_back_by _ RInfinity [64%N])]; try reflexivity; try (repeat constructor);
      eexists; split; reflexivity.
  - apply (f32_reads_back_by _ RNaN [66%N]); try reflexivity; [repeat constructor | eexists; split; reflexivity].
  - cbn [valid_binary] in V. destruct (f32_widen s k e V) as (k' & e' & W & B & D & Lo & Hi).
    destruct (written_read_near s k' e' B) as (r & cb & r' & ko & eo & R1 & W1 & W2 & W3 & W4 & W5 & BO & N7); [rewrite D; assumption..|].
    apply (f32_reads_back_by _ r cb); [rewrite W; exact R1|exact W1|exact W2|exact W3|]. exists r'. split; [exact W4|].
    unfold real_f32. rewrite W5. cbn [f64_as_f32]. apply round24_near; [exact V|]. unfold near in *. rewrite <- D. exact N7.
Qed.
Print Assumptions C94_f32.

(** 0.3 as [f32] and the smallest positive [f32]. *)
Example C94_case :
  valid_binary 24 128 (S754_finite false 10066330 (-25)) = true /\ valid_binary 24 128 (S754_finite false 1 (-149)) = true
  /\ to_vec (tober_f32 (S754_finite false 10066330 (-25)))
     = Ok [9; 22; 3; 51; 48; 48; 48; 48; 48; 48; 49; 49; 57; 50; 48; 57; 50; 56; 57; 54; 69; 45; 49; 55]%N
  /\ from_der f32_codec [9; 22; 3; 51; 48; 48; 48; 48; 48; 48; 49; 49; 57; 50; 48; 57; 50; 56; 57; 54; 69; 45; 49; 55]%N
     = Ok ([], S754_finite false 10066330 (-25)).
Proof. repeat split; vm_compute; reflexivity. Qed.

(** The sign of a zero is lost. *)
Theorem C94_negative_zero_refuted :
  exists enc, to_vec (tober_f32 (S754_zero true)) = Ok enc /\ from_der f32_codec enc = Ok ([], S754_zero false).
Proof. exists [9; 0]%N. split; vm_compute; reflexivity. Qed.
Print Assumptions C94_negative_zero_refuted.
