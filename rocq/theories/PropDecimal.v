(** Properties of REAL in character form: C55, and the decimal part of C56. *)
From Coq Require Import SpecFloat QArith Qpower Qabs.
From Verif Require Import Base MHeader MEncode SHeader PArith PHeader PEncode MBer SBer PBer
  MInt SInt PCodec PInt MOid SOid POid PTime MText SText PText MReal PFloat SReal PReal PropTime PropReal PDecimal.
Local Open Scope Z_scope.

(** ** The four parsers of [f64] *)

Lemma f64_content_iff h cb v : h_length h = Definite (blen cb) ->
  ((exists r, f64_content h cb = Ok (r, v)) <-> h_constructed h = false /\ exists r, read_content cb = Ok r /\ real_f64 r = v).
Proof.
  intros E. unfold f64_content. split.
  - intros [r H]. apply bind_ok in H as ((rem, x) & H & H2). destruct (proj1 (real_content_iff h cb x E) (ex_intro _ rem H)) as [A B].
    split; [exact A|]. exists x. split; [exact B | congruence].
  - intros (A & x & B & C). destruct (proj2 (real_content_iff h cb x E) (conj A B)) as [rem H]. exists rem. rewrite H. cbn [bind]. congruence.
Qed.

Lemma f64_accept i rem v : bytes_ok i ->
  let accepted := exists c content, starts_with_object c false 9 content i rem /\ exists r, read_content content = Ok r /\ real_f64 r = v in
  (parse_ber f64_codec i = Ok (rem, v) <-> accepted) /\ (from_ber f64_codec i = Ok (rem, v) <-> accepted)
  /\ (parse_der f64_codec i = Ok (rem, v) <-> accepted) /\ (from_der f64_codec i = Ok (rem, v) <-> accepted).
Proof.
  intros Hi. set (P := fun cb v => exists r, read_content cb = Ok r /\ real_f64 r = v).
  apply (prim_accept f64_codec 9 P P); try reflexivity.
  - intros x. reflexivity.
  - intros h d x _ E. apply f64_content_iff. exact E.
  - intros h d x _ E. apply f64_content_iff. exact E.
  - intros h d x _ E. unfold P. rewrite <- (f64_content_iff h d x E). cbn [ber_content check_constraints f64_codec]. split; [intros [_ H]; exact H|].
    intros H. split; [|exact H]. apply f64_content_iff in H as [H _]; [|exact E].
    unfold real_check, assert_primitive. cbn [any_header]. rewrite H, E. reflexivity.
  - intros h d r x E. cbn [ber_content f64_codec] in E. unfold f64_content, real_content, assert_primitive in E. destruct (h_constructed h); [discriminate | reflexivity].
  - exact Hi.
Qed.

Lemma f64_all_read i rem c content r v : bytes_ok i -> starts_with_object c false 9 content i rem ->
  read_content content = Ok r -> real_f64 r = v -> all_read f64_codec i rem v.
Proof.
  intros Hi S E F. destruct (f64_accept i rem v Hi) as (A & B & C & D).
  assert (X: exists c content, starts_with_object c false 9 content i rem /\ exists r, read_content content = Ok r /\ real_f64 r = v) by eauto 6.
  repeat split; [apply A | apply B | apply C | apply D]; exact X.
Qed.

(** ** C56: integers in character form *)

(** NR2 and NR3 with an integral value: sign, digits, E, digits. *)
Theorem C56_decimal (i rem content : bytes) (c : class) (nr : N) (neg : bool) (sg et sg' ds ds' : list N) (v k : Z) :
  bytes_ok i -> starts_with_object c false 9 content i rem ->
  nr = 2%N \/ nr = 3%N -> sign_text neg sg -> e_text et -> sign_text false sg' ->
  ds <> [] -> Forall (fun d => (d < 10)%N) ds -> ds' <> [] -> Forall (fun d => (d < 10)%N) ds' ->
  content = nr :: sg ++ digits ds ++ et ++ sg' ++ digits ds' ->
  v = Z.of_N (value_be 10 ds) -> k = Z.of_N (value_be 10 ds') -> 0 < v -> v * 10 ^ k < 2 ^ 53 ->
  exists r, all_read real_codec i rem r /\ holds r (inject_Z ((if neg then - v else v) * 10 ^ k)).
Proof.
  intros Hi HS Hnr S E S' N F N' F' EC Ev Ek Pv Hv.
  assert (T: 0 < 10 ^ k) by (apply Z.pow_pos_nonneg; lia).
  destruct (real_new_holds ((if neg then - v else v) * 10 ^ k)) as (r & R & H).
  { rewrite Z.abs_mul, (Z.abs_eq (10 ^ k)) by lia. destruct neg; nia. }
  exists r. split; [|exact H]. apply (real_all_read i rem c content); [assumption | assumption|].
  rewrite EC. set (s := sg ++ _).
  assert (A: Forall (fun b => (b < 128)%N) s).
  { assert (D: forall l, Forall (fun d => (d < 10)%N) l -> Forall (fun b => (b < 128)%N) (digits l)).
    { intros l Fl. apply Forall_map. eapply Forall_impl; [|exact Fl]. cbn. intros; lia. }
    unfold s. repeat (apply Forall_app; split); try (apply D; assumption).
    - destruct S as [->|[_ ->]]; [destruct neg|]; repeat constructor.
    - destruct E as [->| ->]; repeat constructor.
    - destruct S' as [->|[_ ->]]; repeat constructor. }
  unfold read_content, decode_real.
  assert (Q: (nr / 128 mod 2 =? 1)%N = false /\ (nr / 64 mod 2 =? 1)%N = false /\ (nr mod 4 =? 1)%N = false /\ (nr mod 4 =? 0)%N = false)
    by (destruct Hnr as [-> | ->]; repeat split; reflexivity).
  destruct Q as (-> & -> & Q1 & Q0). unfold decode_decimal_form. rewrite (ascii_from_utf8 s A), Q1, Q0.
  unfold s. rewrite (parse_f64_integer neg sg ds et sg' ds' v k) by assumption. exact R.
Qed.
Print Assumptions C56_decimal.

Example C56_decimal_case :
  let i := [9; 6; 3; 45; 49; 50; 69; 51]%N in
  starts_with_object Universal false 9 [3; 45; 49; 50; 69; 51]%N i [] /\ sign_text true [45%N] /\ value_be 10 [1; 2]%N = 12%N
  /\ parse_der real_codec i = Ok ([], RBinary (f64_of_Z (-12)) 10 3 10).
Proof.
  split; [apply (short_object [3; 45; 49; 50; 69; 51]%N []); reflexivity|]. split; [left; reflexivity|]. split; vm_compute; reflexivity.
Qed.

(** NR1: digits, below 2^32. *)
Theorem C56_nr1 (i rem content : bytes) (c : class) (ds : list N) (v : N) :
  bytes_ok i -> starts_with_object c false 9 content i rem -> ds <> [] -> Forall (fun d => (d < 10)%N) ds ->
  content = 1%N :: digits ds -> v = value_be 10 ds -> (v < 2 ^ 32)%N ->
  exists r, all_read real_codec i rem r /\ holds r (inject_Z (Z.of_N v)).
Proof.
  intros Hi HS Nd F EC Ev Hv.
  assert (R: read_content content = real_new (f64_of_Z (Z.of_N v))).
  { rewrite EC. unfold read_content, decode_real. change (1 / 128 mod 2 =? 1)%N with false. change (1 / 64 mod 2 =? 1)%N with false. cbv iota.
    unfold decode_decimal_form. rewrite ascii_from_utf8.
    2:{ apply Forall_map. eapply Forall_impl; [|exact F]. cbn. intros; lia. }
    change (1 mod 4 =? 1)%N with true. cbv iota.
    assert (P: parse_uint (2 ^ 32) (digits ds) = Some v); [|rewrite P; reflexivity].
    apply parse_uint_iff; [reflexivity|]. split; [|exact Hv]. unfold numeral. exists [], ds. repeat split; try assumption. left; reflexivity. }
  destruct (N.eq_dec v 0) as [->|Ne].
  - exists RZero. split; [eapply real_all_read; [exact Hi | exact HS | rewrite R; reflexivity]|]. exists 0%Q. split; reflexivity.
  - destruct (real_new_holds (Z.of_N v)) as (r & E & H); [lia|]. exists r. split; [|exact H].
    eapply real_all_read; [exact Hi | exact HS | rewrite R; exact E].
Qed.
Print Assumptions C56_nr1.

Example C56_nr1_case :
  starts_with_object Universal false 9 [1; 48; 55]%N [9; 3; 1; 48; 55; 7]%N [7%N] /\ value_be 10 [0; 7]%N = 7%N
  /\ parse_der real_codec [9; 3; 1; 48; 55; 7]%N = Ok ([7%N], RBinary (f64_of_Z 7) 10 0 10).
Proof. split; [apply (short_object [1; 48; 55]%N [7%N]); reflexivity|]. split; vm_compute; reflexivity. Qed.

(** ** C55: [f64] through REAL and back *)

(** What is written reads back as the same [f64], with every parser and whatever follows. *)
Definition f64_survives (x : f64) : Prop :=
  exists enc, to_vec (tober_f64 x) = Ok enc /\ bytes_ok enc /\ forall y, bytes_ok y -> all_read f64_codec (enc ++ y) y x.

Lemma f64_survives_by x r cb : real_new x = Ok r -> real_write r = Ok (cb, blen cb) -> (blen cb < 2 ^ 64)%N -> bytes_ok cb ->
  (exists r', read_content cb = Ok r' /\ real_f64 r' = x) -> f64_survives x.
Proof.
  intros N W L O (r' & R & F). destruct (written_real r cb W L O) as (enc & E & Oe & S).
  exists enc. unfold tober_f64. rewrite N. split; [exact E|]. split; [exact Oe|].
  intros y Hy. eapply f64_all_read; [|apply S | exact R | exact F]. apply bytes_ok_app. split; assumption.
Qed.

Lemma decimal_digits n : exists ds, decimal n = digits ds /\ ds <> [] /\ Forall (fun d => (d < 10)%N) ds /\ n = value_be 10 ds.
Proof.
  destruct (decimal_ok n) as (ds & E & F & V & H). exists ds. split; [exact E|]. split; [|auto].
  destruct H as [->|H]; [discriminate|]. intros ->. apply H. reflexivity.
Qed.

(** Integers of absolute value below 2^53. *)
Theorem C55_integers (n : Z) : Z.abs n < 2 ^ 53 -> f64_survives (f64_of_Z n).
Proof.
  intros H. destruct (Z.eq_dec n 0) as [->|Ne].
  { apply (f64_survives_by _ RZero []); try reflexivity; [constructor|]. exists RZero. split; reflexivity. }
  destruct (real_new_int n) as (m & k & En & Hk & Hm & R); [lia|].
  destruct (decimal_digits (Z.to_N (Z.abs m))) as (ds & D & Nd & Fd & Vd).
  destruct (decimal_digits (Z.to_N k)) as (ds' & D' & Nd' & Fd' & Vd').
  set (sg := if m <? 0 then [45%N] else []). set (sg' := if k =? 0 then [43%N] else []).
  set (cb := 3%N :: sg ++ digits ds ++ [69%N] ++ sg' ++ digits ds').
  assert (T: real_text (f64_of_Z m) k = cb).
  { unfold real_text, cb. f_equal. rewrite <- D, <- D'. unfold decimal_Z. destruct (Z.ltb_spec k 0); [lia|].
    assert (SH: show_f64 (f64_of_Z m) = sg ++ decimal (Z.to_N (Z.abs m))).
    { destruct (int_form m Hm) as (x & j & F & _). rewrite F. unfold show_f64. rewrite <- F.
      rewrite has_fract_int, f64_trunc_int by lia. cbn [negb andb]. destruct (Z.ltb_spec (Z.abs m) (2 ^ 53)); [|lia]. reflexivity. }
    rewrite SH, <- app_assoc. reflexivity. }
  assert (Dig: forall l, Forall (fun d => (d < 10)%N) l -> Forall (fun b => (b < 128)%N) (digits l)).
  { intros l Fl. apply Forall_map. eapply Forall_impl; [|exact Fl]. cbn. intros; lia. }
  assert (A: Forall (fun b => (b < 128)%N) (sg ++ digits ds ++ [69%N] ++ sg' ++ digits ds')).
  { repeat (apply Forall_app; split); try (apply Dig; assumption).
    - unfold sg. destruct (m <? 0); repeat constructor.
    - repeat constructor.
    - unfold sg'. destruct (k =? 0); repeat constructor. }
  assert (P: parse_f64 (sg ++ digits ds ++ [69%N] ++ sg' ++ digits ds') = Some (f64_of_Z n)).
  { rewrite (parse_f64_integer (m <? 0) sg ds [69%N] sg' ds' (Z.abs m) k); try assumption; try lia.
    - do 2 f_equal. rewrite En. f_equal. destruct (Z.ltb_spec m 0); lia.
    - left. reflexivity.
    - left. reflexivity.
    - unfold sg'. destruct (k =? 0); [right; split; reflexivity | left; reflexivity]. }
  assert (RC: read_content cb = real_new (f64_of_Z n)).
  { unfold read_content, cb, decode_real. change (3 / 128 mod 2 =? 1)%N with false. change (3 / 64 mod 2 =? 1)%N with false. cbv iota.
    unfold decode_decimal_form. rewrite (ascii_from_utf8 _ A). change (3 mod 4 =? 1)%N with false. change (3 mod 4 =? 0)%N with false. cbv iota.
    rewrite P. reflexivity. }
  apply (f64_survives_by _ (RBinary (f64_of_Z m) 10 k 10) cb).
  - exact R.
  - unfold real_write. change (10 =? 10)%N with true. cbv iota. rewrite T. reflexivity.
  - assert (LD: (length (digits ds) <= 16)%nat).
    { rewrite <- D. apply decimal_short; [lia|]. change (10 ^ N.of_nat 16)%N with 10000000000000000%N. change (2 ^ 53) with 9007199254740992 in Hm. lia. }
    assert (LD': (length (digits ds') <= 2)%nat).
    { rewrite <- D'. apply decimal_short; [lia|]. change (10 ^ N.of_nat 2)%N with 100%N. lia. }
    assert (LS: (length sg <= 1)%nat) by (unfold sg; destruct (m <? 0); cbn; lia).
    assert (LS': (length sg' <= 1)%nat) by (unfold sg'; destruct (k =? 0); cbn; lia).
    unfold cb, blen. cbn [length]. rewrite !app_length. cbn [length]. lia.
  - unfold cb. constructor; [reflexivity|]. eapply Forall_impl; [|exact A]. cbn. intros; lia.
  - eexists. split; [rewrite RC; exact R|]. rewrite En. apply real_f64_int; [lia | exact Hk | rewrite <- En; exact H].
Qed.
Print Assumptions C55_integers.

Theorem C55_special (s : bool) : f64_survives (S754_infinity s) /\ f64_survives S754_nan.
Proof.
  split.
  - destruct s; [apply (f64_survives_by _ RNegInfinity [65%N]) | apply (f64_survives_by _ RInfinity [64%N])]; try reflexivity; try (repeat constructor);
      eexists; split; reflexivity.
  - apply (f64_survives_by _ RNaN [66%N]); try reflexivity; [repeat constructor | eexists; split; reflexivity].
Qed.
Print Assumptions C55_special.

Example C55_case :
  to_vec (tober_f64 (f64_of_Z (-1200))) = Ok [9; 6; 3; 45; 49; 50; 69; 50]%N
  /\ from_der f64_codec [9; 6; 3; 45; 49; 50; 69; 50; 1]%N = Ok ([1%N], f64_of_Z (-1200))
  /\ to_vec (tober_f64 (f64_of_Z 7)) = Ok [9; 5; 3; 55; 69; 43; 48]%N.
Proof. repeat split; vm_compute; reflexivity. Qed.

(** Not every [f64] survives: 0.3 comes back as the next larger number. *)
Theorem C55_refuted :
  exists x enc, valid_binary 53 1024 x = true /\ to_vec (tober_f64 x) = Ok enc
    /\ from_der f64_codec enc = Ok ([], S754_finite false 5404319552844596 (-54)) /\ x = S754_finite false 5404319552844595 (-54).
Proof.
  exists (S754_finite false 5404319552844595 (-54)). eexists. split; [vm_compute; reflexivity|]. split; [vm_compute; reflexivity|].
  split; [vm_compute; reflexivity | reflexivity].
Qed.
Print Assumptions C55_refuted.

(** -0.0 comes back as 0.0. *)
Theorem C55_negative_zero_refuted :
  exists enc, to_vec (tober_f64 (S754_zero true)) = Ok enc /\ from_der f64_codec enc = Ok ([], S754_zero false).
Proof. exists [9; 0]%N. split; vm_compute; reflexivity. Qed.
Print Assumptions C55_negative_zero_refuted.
