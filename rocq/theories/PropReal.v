(** Properties of REAL: C40, C55, C56. *)
From Coq Require Import SpecFloat QArith Qpower Qabs.
From Verif Require Import Base MHeader MEncode SHeader PArith PHeader PEncode MBer SBer PBer
  MInt SInt PCodec PInt MOid MText MReal PFloat SReal PReal PropTime.
Local Open Scope Z_scope.

(** ** The four parsers *)

(** What the contents octets of an object of definite length are read as. *)
Definition read_content (cb : bytes) : res real :=
  decode_real (mk_header Universal false 9 (Definite (blen cb)) None None) cb.

Lemma decode_real_length h h' cb : h_length h = h_length h' -> decode_real h cb = decode_real h' cb.
Proof. intros E. destruct cb; [reflexivity|]. unfold decode_real. rewrite E. reflexivity. Qed.

Lemma read_content_eq h cb : h_length h = Definite (blen cb) -> decode_real h cb = read_content cb.
Proof. intros E. apply decode_real_length. exact E. Qed.

Lemma real_content_iff h cb v : h_length h = Definite (blen cb) ->
  ((exists r, real_content h cb = Ok (r, v)) <-> h_constructed h = false /\ read_content cb = Ok v).
Proof.
  intros E. unfold real_content, assert_primitive. destruct (h_constructed h); cbn [negb bind].
  - split; [intros [r H]; discriminate | intros [H _]; discriminate].
  - rewrite (read_content_eq h cb E). destruct (read_content cb); cbn [bind].
    + split; [intros [r H]; split; congruence | intros [_ H]; exists []; congruence].
    + split; [intros [r H]; discriminate | intros [_ H]; discriminate].
    + split; [intros [r H]; discriminate | intros [_ H]; discriminate].
    + split; [intros [r H]; discriminate | intros [_ H]; discriminate].
Qed.

(** All four parsers read the contents octets of a primitive object with tag number 9 and definite length. *)
Lemma real_accept i rem v : bytes_ok i ->
  let accepted := exists c content, starts_with_object c false 9 content i rem /\ read_content content = Ok v in
  (parse_ber real_codec i = Ok (rem, v) <-> accepted) /\ (from_ber real_codec i = Ok (rem, v) <-> accepted)
  /\ (parse_der real_codec i = Ok (rem, v) <-> accepted) /\ (from_der real_codec i = Ok (rem, v) <-> accepted).
Proof.
  intros Hi. apply (prim_accept real_codec 9 (fun cb v => read_content cb = Ok v) (fun cb v => read_content cb = Ok v)); try reflexivity.
  - intros x. reflexivity.
  - intros h d x _ E. apply real_content_iff. exact E.
  - intros h d x _ E. apply real_content_iff. exact E.
  - intros h d x _ E. rewrite <- (real_content_iff h d x E). cbn [ber_content check_constraints real_codec]. split; [intros [_ H]; exact H|].
    intros H. split; [|exact H]. apply real_content_iff in H as [H _]; [|exact E].
    unfold real_check, assert_primitive. cbn [any_header]. rewrite H, E. reflexivity.
  - intros h d r x E. cbn [ber_content real_codec] in E. unfold real_content, assert_primitive in E. destruct (h_constructed h); [discriminate | reflexivity].
  - exact Hi.
Qed.

(** All four parsers return [v]. *)
Definition all_read {T} (p : codec T) (i rem : bytes) (v : T) : Prop :=
  parse_ber p i = Ok (rem, v) /\ from_ber p i = Ok (rem, v) /\ parse_der p i = Ok (rem, v) /\ from_der p i = Ok (rem, v).
(** Some parser returns [v]. *)
Definition some_read {T} (p : codec T) (i rem : bytes) (v : T) : Prop :=
  parse_ber p i = Ok (rem, v) \/ from_ber p i = Ok (rem, v) \/ parse_der p i = Ok (rem, v) \/ from_der p i = Ok (rem, v).

Lemma real_all_read i rem c content v : bytes_ok i -> starts_with_object c false 9 content i rem ->
  read_content content = Ok v -> all_read real_codec i rem v.
Proof.
  intros Hi S E. destruct (real_accept i rem v Hi) as (A & B & C & D).
  assert (X: exists c content, starts_with_object c false 9 content i rem /\ read_content content = Ok v) by eauto.
  repeat split; [apply A | apply B | apply C | apply D]; exact X.
Qed.

Lemma real_some_read i rem rem' c content v : bytes_ok i -> starts_with_object c false 9 content i rem ->
  some_read real_codec i rem' v -> rem' = rem /\ read_content content = Ok v.
Proof.
  intros Hi S H. destruct (real_accept i rem' v Hi) as (A & B & C & D).
  assert (X: exists c content, starts_with_object c false 9 content i rem' /\ read_content content = Ok v)
    by (destruct H as [H|[H|[H|H]]]; [apply A in H | apply B in H | apply C in H | apply D in H]; exact H).
  destruct X as (c' & d' & S' & E'). destruct (object_det _ _ _ _ _ _ _ _ _ _ _ Hi S S') as (_ & _ & _ & <- & <-). auto.
Qed.

(** ** C56: reading contents octets *)

Lemma parts_dy p : (bp_base_code p <= 2)%N ->
  (parts_value p == dy (if bp_negative p then - Z.of_N (bp_number p) else Z.of_N (bp_number p))
                      (Z.of_N (bp_factor p) + log_base (bp_base_code p) * bp_exponent p))%Q.
Proof.
  intros Hb. unfold parts_value, dy. rewrite Qpower_plus by discriminate.
  assert (E: (inject_Z (base_of (bp_base_code p)) ^ bp_exponent p == 2 ^ (log_base (bp_base_code p) * bp_exponent p))%Q).
  { assert (D: bp_base_code p = 0%N \/ bp_base_code p = 1%N \/ bp_base_code p = 2%N) by lia.
    destruct D as [-> | [-> | ->]]; [apply (pow_base 1) | apply (pow_base 3) | apply (pow_base 4)]; lia. }
  rewrite E. destruct (bp_negative p); [rewrite inject_Z_opp|]; ring.
Qed.

Lemma short_exponent eo l : bytes_ok eo -> blen eo = l -> (1 <= l <= 3)%N -> - 2 ^ 23 <= twos eo < 2 ^ 23.
Proof.
  intros Hok L Hl. assert (R: in_signed (length eo) (twos eo)).
  { apply twos_range; [exact Hok|]. intro X. subst eo. change (blen []) with 0%N in L. lia. }
  unfold in_signed in R. unfold blen in L. assert (2 ^ (8 * Z.of_nat (length eo) - 1) <= 2 ^ 23) by (apply Z.pow_le_mono_r; lia). lia.
Qed.

Lemma short_read p eo mo cb : short_form p eo mo cb ->
  read_content cb = read_as (bp_negative p) (bp_base_code p) (bp_factor p) (bp_exponent p) mo.
Proof.
  intros (IP & code & Hc & L & ->). unfold read_content. rewrite (decode_parts p eo mo code) ; [reflexivity | exact IP | lia | exact L|].
  destruct IP as (Hb & _ & Eok & _ & _ & _ & Et & _). rewrite <- Et.
  pose proof (short_exponent eo (code + 1)%N Eok L ltac:(lia)) as R. unfold log_base, i32_min, i32_max.
  change (2 ^ 31) with 2147483648. change (2 ^ 23) with 8388608 in R.
  destruct (bp_base_code p =? 0)%N; [lia|]. destruct (bp_base_code p =? 1)%N; lia.
Qed.

Lemma near_scale q w x : (Qabs (q - w) * 2 ^ 53 <= Qabs w)%Q -> (Qabs (q * 2 ^ x - w * 2 ^ x) <= Qabs (w * 2 ^ x) * 2 ^ (-53))%Q.
Proof.
  intros H. setoid_replace (q * 2 ^ x - w * 2 ^ x)%Q with ((q - w) * 2 ^ x)%Q by ring.
  rewrite !Qabs_Qmult. rewrite (Qabs_pos (2 ^ x)) by (apply Qlt_le_weak, two_pos).
  setoid_replace (Qabs w * 2 ^ x * 2 ^ (-53))%Q with (Qabs w * 2 ^ (-53) * 2 ^ x)%Q by ring.
  apply Qmult_le_compat_r; [|apply Qlt_le_weak, two_pos].
  assert (H1: (2 ^ 53 * 2 ^ (-53) == 1)%Q) by reflexivity.
  setoid_replace (Qabs (q - w))%Q with (Qabs (q - w) * 2 ^ 53 * 2 ^ (-53))%Q by (rewrite <- Qmult_assoc, H1; ring).
  apply Qmult_le_compat_r; [exact H | discriminate].
Qed.

Theorem C56_binary (i rem content : bytes) (c : class) (p : binary_parts) (eo mo : bytes) :
  bytes_ok i -> starts_with_object c false 9 content i rem -> short_form p eo mo content -> (blen mo <= 8)%N ->
  ((bp_number p < 2 ^ 53)%N -> exists r, all_read real_codec i rem r /\ holds r (parts_value p))
  /\ ((bp_number p < 2 ^ 63)%N ->
      exists r q, all_read real_codec i rem r /\ real_value r = Some q
                  /\ (Qabs (q - parts_value p) <= Qabs (parts_value p) * 2 ^ (-53))%Q).
Proof.
  intros Hi HS HF Hm. pose proof HF as (IP & _). destruct IP as (Hb & Hf & Eok & Mok & _ & _ & Et & Mv).
  pose proof (short_read _ _ _ _ HF) as R. pose proof (parts_dy p Hb) as PV.
  unfold read_as in R. destruct (N.ltb_spec 8 (blen mo)) as [L|_]; [lia|].
  assert (V: val mo = Z.of_N (bp_number p)) by (unfold val; lia). rewrite V in R.
  assert (K: (bp_number p < 2 ^ 63)%N -> all_read real_codec i rem
     (RBinary (scaled (if bp_negative p then - Z.of_N (bp_number p) else Z.of_N (bp_number p)) (bp_factor p)) 2
       (bp_exponent p * log_base (bp_base_code p)) (base_number (bp_base_code p)))).
  { intros Hn. apply (real_all_read i rem c content); [assumption | assumption|]. rewrite R.
    rewrite wrap_i64_small by lia. replace (bp_negative p && (Z.of_N (bp_number p) =? - 2 ^ 63)) with false; [reflexivity|].
    symmetry. apply andb_false_iff. right. apply Z.eqb_neq. lia. }
  split; intros Hn.
  - assert (Hn': (bp_number p < 2 ^ 63)%N) by lia. eexists. split; [exact (K Hn')|].
    destruct (scaled_exact (if bp_negative p then - Z.of_N (bp_number p) else Z.of_N (bp_number p)) (bp_factor p) Hf) as (q & E & Eq);
      [destruct (bp_negative p); lia|].
    unfold holds, real_value. rewrite E. eexists. split; [reflexivity|]. rewrite Eq, PV.
    change (inject_Z (Z.of_N 2)) with 2%Q. rewrite dy_scale. rewrite (Z.mul_comm (bp_exponent p)). reflexivity.
  - destruct (scaled_near (if bp_negative p then - Z.of_N (bp_number p) else Z.of_N (bp_number p)) (bp_factor p) Hf) as (q & E & Eq);
      [destruct (bp_negative p); lia|].
    eexists. eexists. split; [exact (K Hn)|]. unfold real_value. rewrite E. split; [reflexivity|].
    change (inject_Z (Z.of_N 2)) with 2%Q. rewrite (Z.mul_comm (bp_exponent p)). rewrite PV.
    rewrite <- dy_scale. apply near_scale. exact Eq.
Qed.
Print Assumptions C56_binary.

(** Nothing else is read as a binary form, except with the length code 11. *)
Theorem C56_binary_only (i rem content : bytes) (c : class) (b : N) (rest : bytes) (r : real) :
  bytes_ok i -> starts_with_object c false 9 content i rem -> content = b :: rest -> (128 <= b)%N -> (b mod 4 <> 3)%N ->
  some_read real_codec i rem r -> exists p eo mo, short_form p eo mo content /\ (blen mo <= 8)%N.
Proof.
  intros Hi HS -> Hb H3 HR. apply (real_some_read i rem rem c (b :: rest)) in HR as [_ HR]; [|assumption|assumption].
  assert (Hok: bytes_ok (b :: rest)).
  { destruct HS as (n & idb & lenb & _ & _ & E). rewrite E in Hi. apply bytes_ok_app in Hi as [_ Hi].
    apply bytes_ok_app in Hi as [_ Hi]. apply bytes_ok_app in Hi as [Hi _]. exact Hi. }
  apply Forall_cons_iff in Hok as [Hb' Hok].
  unfold read_content, decode_real in HR.
  replace (b / 128 mod 2 =? 1)%N with true in HR by lia. unfold decode_binary in HR.
  destruct (N.leb_spec (blen rest) (b mod 4 + 1)) as [L|L]; [discriminate|].
  destruct (N.eqb_spec (b / 16 mod 4) 3) as [B|B]; [discriminate|].
  apply bind_ok in HR as (e & _ & HR).
  destruct (N.ltb_spec 8 (blen (skipn (N.to_nat (b mod 4 + 1)) rest))) as [M|M]; [discriminate|].
  set (n := N.to_nat (b mod 4 + 1)) in *. set (eo := firstn n rest) in *. set (mo := skipn n rest) in *.
  assert (Er: rest = eo ++ mo) by (symmetry; apply firstn_skipn).
  assert (Ln: length eo = n). { unfold eo. rewrite firstn_length. unfold blen in L. lia. }
  assert (Le: blen eo = (b mod 4 + 1)%N) by (unfold blen; lia).
  assert (Lm: mo <> []). { intro X. rewrite Er, blen_app, Le, X in L. change (blen []) with 0%N in L. lia. }
  assert (Le': eo <> []). { intro X. rewrite X in Le. change (blen []) with 0%N in Le. lia. }
  rewrite Er in Hok. apply bytes_ok_app in Hok as [Oe Om].
  exists (mk_parts (b / 64 mod 2 =? 1)%N (b / 16 mod 4) (b / 4 mod 4) (twos eo) (value_be 256 mo)), eo, mo.
  split; [|exact M]. split.
  - unfold in_parts. cbn [bp_base_code bp_factor bp_exponent bp_number]. repeat split; try assumption; lia.
  - exists (b mod 4)%N. split; [lia|]. split; [exact Le|]. rewrite Er at 1. f_equal.
    unfold first_octet. cbn [bp_negative bp_base_code bp_factor]. destruct (N.eqb_spec (b / 64 mod 2) 1); lia.
Qed.
Print Assumptions C56_binary_only.

(** Zero and the special values. *)
Theorem C56_special (i rem content : bytes) (c : class) :
  bytes_ok i -> starts_with_object c false 9 content i rem ->
  (content = [] -> all_read real_codec i rem RZero)
  /\ (content = [64%N] -> all_read real_codec i rem RInfinity)
  /\ (content = [65%N] -> all_read real_codec i rem RNegInfinity)
  /\ (content = [66%N] -> all_read real_codec i rem RNaN)
  /\ (forall b rest r, content = b :: rest -> (64 <= b < 128)%N -> some_read real_codec i rem r ->
        rest = [] /\ (b = 64%N \/ b = 65%N \/ b = 66%N)).
Proof.
  intros Hi HS. split; [|split; [|split; [|split]]]; try (intros ->; eapply real_all_read; [exact Hi | exact HS | reflexivity]).
  intros b rest r -> Hb HR. apply (real_some_read i rem rem c (b :: rest)) in HR as [_ HR]; [|assumption|assumption].
  unfold read_content, decode_real in HR.
  replace (b / 128 mod 2 =? 1)%N with false in HR by lia. replace (b / 64 mod 2 =? 1)%N with true in HR by lia.
  cbn [h_length blength_eqb] in HR. rewrite blen_cons in HR. destruct (N.eqb_spec (1 + blen rest) 1) as [L|L]; [|discriminate].
  cbn [negb] in HR. split; [destruct rest; [reflexivity | rewrite blen_cons in L; lia]|].
  destruct (N.eqb_spec b 64); [tauto|]. destruct (N.eqb_spec b 65); [tauto|]. destruct (N.eqb_spec b 66); [tauto|]. discriminate.
Qed.
Print Assumptions C56_special.

(** An object of up to 127 contents octets. *)
Lemma short_object cb x : (blen cb < 128)%N -> starts_with_object Universal false 9 cb (9%N :: blen cb :: cb ++ x) x.
Proof.
  intros L. exists 9%N, [9%N], [blen cb]. split; [|split; reflexivity].
  apply (readable_written Universal false 9 (blen cb) [9%N] [blen cb]).
  - reflexivity.
  - lia.
  - discriminate.
  - constructor; reflexivity.
  - constructor. exact L.
Qed.

(** Negative, base 16, factor 3, exponent -2, number 5. *)
Example C56_case :
  let i := [9; 3; 236; 254; 5; 170]%N in
  let p := mk_parts true 2 3 (-2) 5 in
  bytes_ok i /\ starts_with_object Universal false 9 [236; 254; 5]%N i [170%N] /\ short_form p [254%N] [5%N] [236; 254; 5]%N
  /\ (parts_value p == - (40 # 256))%Q
  /\ exists r, parse_der real_codec i = Ok ([170%N], r) /\ holds r (- (40 # 256))%Q.
Proof.
  split; [repeat constructor|]. split; [apply (short_object [236; 254; 5]%N [170%N]); reflexivity|].
  split.
  { split.
    - unfold in_parts. cbn [bp_base_code bp_factor bp_exponent bp_number]. repeat split; try discriminate; repeat constructor.
    - exists 0%N. repeat split; discriminate. }
  split; [reflexivity|]. eexists. split; [vm_compute; reflexivity|]. eexists. split; [vm_compute; reflexivity|]. reflexivity.
Qed.

Lemma holds_binary m e eb v q : f64_value m = Some v -> holds (RBinary m 2 e eb) q -> (v * 2 ^ e == q)%Q.
Proof. intros E (q' & E' & H). unfold real_value in E'. rewrite E in E'. injection E' as <-. exact H. Qed.

(** Not what X.690 says: with an exponent length in an octet of its own, that octet and the next three are taken
    as the exponent. *)
Theorem C56_long_exponent_refuted :
  exists i content p eo mo r,
    bytes_ok i /\ starts_with_object Universal false 9 content i [] /\ long_form p eo mo content
    /\ (bp_number p < 2 ^ 53)%N /\ all_read real_codec i [] r /\ ~ holds r (parts_value p).
Proof.
  set (cb := [131; 2; 0; 0; 0; 5; 7]%N).
  exists (9%N :: blen cb :: cb ++ []), cb, (mk_parts false 0 0 0 1287), [0; 0]%N, [0; 5; 7]%N,
    (RBinary (f64_of_Z 1287) 2 33554432 2).
  assert (B: bytes_ok (9%N :: blen cb :: cb ++ [])) by (repeat constructor).
  assert (S: starts_with_object Universal false 9 cb (9%N :: blen cb :: cb ++ []) []) by (apply short_object; reflexivity).
  split; [exact B|]. split; [exact S|]. split.
  { split; [|reflexivity]. unfold in_parts. cbn [bp_base_code bp_factor bp_exponent bp_number].
    repeat split; try discriminate; repeat constructor. }
  split; [reflexivity|]. split; [eapply real_all_read; [exact B | exact S | vm_compute; reflexivity]|].
  intros H. apply (holds_binary _ _ _ (dy 5660285859790848 (-42))) in H; [|vm_compute; reflexivity].
  rewrite dy_scale in H. change 5660285859790848 with (1287 * 2 ^ 42) in H. rewrite dy_shift in H by discriminate.
  change (parts_value (mk_parts false 0 0 0 1287)) with (dy 1287 0) in H.
  apply dy_odd in H as [_ H]; [discriminate | reflexivity | reflexivity].
Qed.
Print Assumptions C56_long_exponent_refuted.

(** ... and a shorter one is refused. *)
Theorem C56_long_exponent_rejected_refuted :
  exists i content p eo mo,
    bytes_ok i /\ starts_with_object Universal false 9 content i [] /\ long_form p eo mo content
    /\ (bp_number p < 2 ^ 53)%N /\ forall r, ~ some_read real_codec i [] r.
Proof.
  set (cb := [131; 1; 0; 5]%N).
  exists (9%N :: blen cb :: cb ++ []), cb, (mk_parts false 0 0 0 5), [0%N], [5%N].
  assert (B: bytes_ok (9%N :: blen cb :: cb ++ [])) by (repeat constructor).
  assert (S: starts_with_object Universal false 9 cb (9%N :: blen cb :: cb ++ []) []) by (apply short_object; reflexivity).
  split; [exact B|]. split; [exact S|]. split.
  { split; [|reflexivity]. unfold in_parts. cbn [bp_base_code bp_factor bp_exponent bp_number].
    repeat split; try discriminate; repeat constructor. }
  split; [reflexivity|]. intros r H. eapply real_some_read in H as [_ H]; [|exact B|exact S]. vm_compute in H. discriminate.
Qed.
Print Assumptions C56_long_exponent_rejected_refuted.

(** A number of 8 octets with its first bit set is read as a negative number. *)
Theorem C56_large_number_refuted :
  exists i content p eo mo r,
    bytes_ok i /\ starts_with_object Universal false 9 content i [] /\ short_form p eo mo content /\ (blen mo <= 8)%N
    /\ bp_negative p = false /\ all_read real_codec i [] r /\ holds r (-1)%Q.
Proof.
  set (cb := [128; 0; 255; 255; 255; 255; 255; 255; 255; 255]%N).
  exists (9%N :: blen cb :: cb ++ []), cb, (mk_parts false 0 0 0 (2 ^ 64 - 1)), [0%N], ones, (RBinary (f64_of_Z (-1)) 2 0 2).
  assert (B: bytes_ok (9%N :: blen cb :: cb ++ [])) by (repeat constructor).
  assert (S: starts_with_object Universal false 9 cb (9%N :: blen cb :: cb ++ []) []) by (apply short_object; reflexivity).
  split; [exact B|]. split; [exact S|]. split.
  { split.
    - unfold in_parts. cbn [bp_base_code bp_factor bp_exponent bp_number]. repeat split; try discriminate; repeat constructor.
    - exists 0%N. repeat split; discriminate. }
  split; [discriminate|]. split; [reflexivity|]. split; [eapply real_all_read; [exact B | exact S | vm_compute; reflexivity]|].
  eexists. split; [vm_compute; reflexivity | reflexivity].
Qed.
Print Assumptions C56_large_number_refuted.

(** Contents octets on which the parsers panic in a build with overflow checks: an exponent of four octets in base 8,
    and the number 2^63 with a sign. *)
Theorem C56_panic_refuted :
  exists i j, bytes_ok i /\ bytes_ok j
    /\ parse_ber real_codec i = Panic /\ from_ber real_codec i = Panic /\ parse_der real_codec i = Panic /\ from_der real_codec i = Panic
    /\ parse_ber real_codec j = Panic /\ from_ber real_codec j = Panic /\ parse_der real_codec j = Panic /\ from_der real_codec j = Panic.
Proof.
  exists [9; 6; 147; 127; 255; 255; 255; 1]%N, [9; 10; 192; 0; 128; 0; 0; 0; 0; 0; 0; 0]%N.
  split; [repeat constructor|]. split; [repeat constructor|]. repeat split; vm_compute; reflexivity.
Qed.
Print Assumptions C56_panic_refuted.

(** Character forms of X.690 8.5.8 (ISO 6093) which are refused: NR1 with a sign, with a space before, NR2 with a comma. *)
Theorem C56_decimal_refuted :
  Forall (fun i => bytes_ok i /\ forall rem r, ~ some_read real_codec i rem r)
    [[9; 3; 1; 45; 53]; [9; 3; 1; 32; 53]; [9; 4; 2; 53; 44; 48]]%N.
Proof.
  repeat constructor; intros rem r [H|[H|[H|H]]]; vm_compute in H; discriminate.
Qed.
Print Assumptions C56_decimal_refuted.

(** Texts which are no character form and are read: "inf", "nan". *)
Theorem C56_names_refuted :
  parse_der real_codec [9; 4; 3; 105; 110; 102]%N = Ok ([], RInfinity)
  /\ parse_der real_codec [9; 4; 3; 110; 97; 110]%N = Ok ([], RNaN).
Proof. split; vm_compute; reflexivity. Qed.
Print Assumptions C56_names_refuted.

(** ** C40: writing binary values *)

(** What is written reads back, with every parser and whatever follows, as a value holding the same number. *)
Definition survives (r : real) : Prop :=
  exists enc r' q, to_vec (tober_real r) = Ok enc /\ bytes_ok enc
    /\ (forall x, bytes_ok x -> all_read real_codec (enc ++ x) x r') /\ holds r q /\ holds r' q.

Lemma written_real r cb : real_write r = Ok (cb, blen cb) -> (blen cb < 2 ^ 64)%N -> bytes_ok cb ->
  exists enc, to_vec (tober_real r) = Ok enc /\ bytes_ok enc /\ forall x, starts_with_object Universal false 9 cb (enc ++ x) x.
Proof.
  intros W L Hok. apply (writes_starts (tober_real r) Universal false 9 cb); try assumption; [|reflexivity].
  split; [reflexivity|]. cbn [tb_content_len tober_real tb_write_content]. unfold real_content_len. rewrite W. split; reflexivity.
Qed.

Lemma survives_read r cb : real_write r = Ok (cb, blen cb) -> (blen cb < 2 ^ 64)%N -> bytes_ok cb ->
  (survives r <-> exists r' q, read_content cb = Ok r' /\ holds r q /\ holds r' q).
Proof.
  intros W L Hok. destruct (written_real r cb W L Hok) as (enc & E & Oe & S). split.
  - intros (enc' & r' & q & E' & _ & A & H1 & H2). rewrite E in E'. injection E' as <-. exists r', q. split; [|split; assumption].
    specialize (A [] (Forall_nil _)). destruct A as [A _].
    eapply real_some_read; [| apply (S []) | left; exact A]. rewrite app_nil_r. exact Oe.
  - intros (r' & q & R & H1 & H2). exists enc, r', q. split; [exact E|]. split; [exact Oe|]. split; [|split; assumption].
    intros x Hx. eapply real_all_read; [|apply S|exact R]. apply bytes_ok_app. split; assumption.
Qed.

Lemma finite_dy (s : bool) k ek n i : Z.pos k = n * 2 ^ i -> 0 <= i ->
  (inject_Z (if s then Z.neg k else Z.pos k) * 2 ^ ek == dy (if s then - n else n) (ek + i))%Q.
Proof.
  intros E I. change (dy (if s then Z.neg k else Z.pos k) ek == dy (if s then - n else n) (ek + i))%Q.
  rewrite <- dy_shift by exact I. replace (if s then Z.neg k else Z.pos k) with ((if s then - n else n) * 2 ^ i); [reflexivity|].
  destruct s; [change (Z.neg k) with (- Z.pos k)|]; nia.
Qed.

Lemma abs_dy z e : (Qabs (dy z e) == dy (Z.abs z) e)%Q.
Proof. unfold dy. rewrite Qabs_Qmult, (Qabs_pos (2 ^ e)) by (apply Qlt_le_weak, two_pos). reflexivity. Qed.

Lemma dy_lt_64 n t : 0 < n -> n < 2 ^ 53 -> ((dy n t < 2 ^ 64)%Q <-> (0 <= t -> n * 2 ^ t < 2 ^ 64)).
Proof.
  intros P L. assert (E: (2 ^ 64 == dy 1 64)%Q) by reflexivity. rewrite E, dy_compare.
  destruct (Z_lt_le_dec t 0) as [H|H].
  - split; [lia|]. intros _. rewrite Z.min_l by lia. rewrite Z.sub_diag. assert (2 ^ 53 <= 2 ^ (64 - t)) by (apply Z.pow_le_mono_r; lia). lia.
  - destruct (Z_le_gt_dec t 64).
    + rewrite Z.min_l by lia. rewrite Z.sub_diag. replace (2 ^ 64) with (2 ^ (64 - t) * 2 ^ t) by (rewrite <- Z.pow_add_r by lia; f_equal; lia).
      assert (0 < 2 ^ t) by (apply Z.pow_pos_nonneg; lia). nia.
    + rewrite Z.min_r by lia. rewrite Z.sub_diag. assert (2 ^ 64 <= 2 ^ t) by (apply Z.pow_le_mono_r; lia).
      assert (0 < 2 ^ (t - 64)) by (apply Z.pow_pos_nonneg; lia). nia.
Qed.

Lemma written_unfold m e cb : real_binary_content m e 2 = Ok cb -> real_write (RBinary m 2 e 2) = Ok (cb, blen cb).
Proof. intros E. unfold real_write. change (2 =? 10)%N with false. change (negb (2 =? 2)%N) with false. cbv iota. rewrite E. reflexivity. Qed.

Lemma skipn_cons_4 (b : N) (eo mo : bytes) : length eo = 4%nat -> (8 <? blen (skipn (N.to_nat 4) (b :: eo ++ mo)))%N = (7 <? blen mo)%N.
Proof.
  intros L. destruct eo as [|a [|b' [|c [|d [|? ?]]]]]; try discriminate.
  change (skipn (N.to_nat 4) (b :: [a; b'; c; d] ++ mo)) with (d :: mo). rewrite blen_cons. lia.
Qed.

Theorem C40_base2 (m : f64) (e : Z) (v : Q) (n t : Z) :
  valid_binary 53 1024 m = true -> f64_value m = Some v -> Z.odd n = true -> 0 < n ->
  (Qabs v == inject_Z n * 2 ^ t)%Q -> Z.abs (e + t) < 2 ^ 24 ->
  (survives (RBinary m 2 e 2) <-> (2 ^ (-52) < Qabs v)%Q /\ (Qabs v < 2 ^ 64)%Q /\ exponent_fits (e + t)).
Proof.
  intros HV Hv On Pn Hn HE. change (Qabs v == dy n t)%Q in Hn.
  destruct m as [s|s| |s k ek]; try discriminate.
  { injection Hv as <-. exfalso. change (Qabs 0) with 0%Q in Hn.
    assert (0 < dy n t)%Q; [|rewrite <- Hn in H; discriminate]. unfold dy. setoid_replace 0%Q with (0 * 2 ^ t)%Q by ring.
    apply Qmult_lt_r; [apply two_pos|]. change 0%Q with (inject_Z 0). rewrite <- Zlt_Qlt. exact Pn. }
  injection Hv as <-. cbn [valid_binary] in HV.
  destruct (odd_part k) as (n' & i & On' & Pn' & I & Ek).
  assert (EV: (inject_Z (if s then Z.neg k else Z.pos k) * 2 ^ ek == dy (if s then - n' else n') (ek + i))%Q) by (apply finite_dy; assumption).
  assert (EA: (Qabs (inject_Z (if s then Z.neg k else Z.pos k) * 2 ^ ek) == dy n' (ek + i))%Q).
  { rewrite EV, abs_dy. replace (Z.abs (if s then - n' else n')) with n' by (destruct s; lia). reflexivity. }
  rewrite EA in Hn. apply dy_odd in Hn as [-> <-]; [|assumption|assumption]. clear On' Pn'.
  rewrite EA. clear EA. set (t := ek + i) in *.
  assert (EK: (dy n t == dy (Z.pos k) ek)%Q) by (rewrite Ek; symmetry; apply dy_shift; exact I).
  assert (HR: forall q, holds (RBinary (S754_finite s k ek) 2 e 2) q <-> (q == dy (if s then - n else n) (t + e))%Q).
  { intros q. unfold holds, real_value, f64_value. change (inject_Z (Z.of_N 2)) with 2%Q. split.
    - intros (q' & E & H). injection E as <-. rewrite <- H, EV. apply dy_scale.
    - intros H. eexists. split; [reflexivity|]. rewrite H, EV. apply dy_scale. }
  assert (Hn53: n < 2 ^ 53).
  { pose proof (bounded_cases _ _ HV) as [_ HC]. assert (Z.pos k < 2 ^ 53) by (unfold normal in HC; change (2 ^ 53) with (2 * 2 ^ 52) in *; lia).
    assert (0 < 2 ^ i) by (apply Z.pow_pos_nonneg; lia). nia. }
  pose proof (epsilon_iff k ek HV) as HEps.
  destruct (f64_gt (S754_finite false k ek) f64_epsilon) eqn:G.
  2:{ split.
      - intros (enc & r' & q & E & _). exfalso. unfold to_vec, encode in E.
        unfold tober_real, real_write in E. cbn [tb_write_content] in E. change (2 =? 10)%N with false in E. change (negb (2 =? 2)%N) with false in E. cbv iota in E.
        rewrite (small_panics s k ek e HV G) in E. cbn [bind wseq] in E. destruct (write_header _ ) as [[? ?]| | |]; discriminate.
      - intros [H _]. rewrite EK in H. apply HEps in H. discriminate. }
  assert (HG: (2 ^ (-52) < dy n t)%Q) by (rewrite EK; apply HEps; reflexivity).
  destruct (above_epsilon k ek HV G) as (Hk & K1 & K2).
  assert (Hek: ek <= 971) by (apply bounded_cases in HV as [HV _]; exact HV).
  assert (Hi: i < 53). { destruct (Z_lt_le_dec i 53); [assumption|]. assert (2 ^ 53 <= 2 ^ i) by (apply Z.pow_le_mono_r; lia). unfold normal in Hk. nia. }
  assert (He: i32_min + 1000000 < e < i32_max - 1000000).
  { unfold i32_min, i32_max, t in *. change (2 ^ 24) with 16777216 in HE. change (2 ^ 31) with 2147483648. lia. }
  destruct (Qlt_le_dec (dy n t) (2 ^ 64)) as [HS|HS].
  - (* written as it is *)
    assert (W: real_binary_content (S754_finite s k ek) e 2 = Ok
       (first_octet (mk_parts s 0 (Z.to_N (t mod 1)) (e + t / 1) (Z.to_N n)) (exponent_octets (Z.abs (e + t / 1)) - 1)
        :: (if (exponent_octets (Z.abs (e + t / 1)) =? 4)%N then [4%N] else []) ++ exponent_bytes (e + t / 1) ++ drop_zeroes (be_bytes 8 (Z.to_N n)))).
    { apply (written_octets s k ek e 2 1 0 e k ek n i); try assumption.
      - left. reflexivity.
      - reflexivity.
      - destruct (Z.eq_dec ek (-104)); [right; auto | left; lia].
      - apply dy_lt_64; assumption.
      - lia.
      - fold t. rewrite Z.div_1_r. unfold i32_min, i32_max. change (2 ^ 24) with 16777216 in HE. change (2 ^ 31) with 2147483648. lia. }
    rewrite Z.mod_1_r, Z.div_1_r in W.
    assert (O4: (exponent_octets (Z.abs (e + t)) =? 4)%N = false).
    { unfold exponent_octets. change (2 ^ 24) with 16777216 in HE. destruct (Z.abs (e + t) <=? 255); [reflexivity|].
      destruct (Z.abs (e + t) <=? 65535); [reflexivity|]. destruct (Z.leb_spec (Z.abs (e + t)) 16777215); [reflexivity | lia]. }
    rewrite O4 in W. cbn [app] in W. fold (mantissa_bytes n) in W.
    assert (HB: base_row 1 2 0) by (left; reflexivity).
    destruct (written_read s 1 2 0 n 0 (e + t) HB ltac:(lia) ltac:(lia) HE) as (Cok & CL & _ & CR).
    change (first_octet (mk_parts s 0 (Z.to_N 0) (twos (exponent_bytes (e + t))) (Z.to_N n))) with (first_octet (mk_parts s 0 (Z.to_N 0) (e + t) (Z.to_N n))) in *.
    set (cb := first_octet _ _ :: _) in *.
    rewrite (survives_read _ cb); [|apply written_unfold; exact W | lia | exact Cok].
    unfold read_content. rewrite CR.
    assert (HR': forall q, holds (RBinary (scaled (if s then - n else n) (Z.to_N 0)) 2 (twos (exponent_bytes (e + t)) * 1) 2) q
                   <-> (q == dy (if s then - n else n) (twos (exponent_bytes (e + t))))%Q).
    { intros q. pose proof (scaled_value s n 0 2 (twos (exponent_bytes (e + t)) * 1) ltac:(lia) ltac:(lia)) as SV.
      rewrite Z.mul_1_r, Z.add_0_l in SV. rewrite Z.mul_1_r. destruct SV as (q0 & E0 & H0). split.
      - intros (q' & E & H). rewrite E0 in E. injection E as <-. rewrite <- H, H0. reflexivity.
      - intros H. exists q0. split; [exact E0|]. rewrite H0, H. reflexivity. }
    split.
    + intros (r' & q & E & H1 & H2). injection E as <-. apply HR in H1. apply HR' in H2. rewrite H1 in H2.
      apply dy_odd in H2 as [_ H2]; [|destruct s; [rewrite Z.odd_opp|]; assumption ..].
      split; [exact HG|]. split; [exact HS|].
      assert (D: exponent_fits (e + t) \/ ~ exponent_fits (e + t)) by (unfold exponent_fits; lia).
      destruct D as [D|D]; [exact D|]. exfalso. apply (exponent_bytes_misfit (e + t) HE D). lia.
    + intros (_ & _ & F). eexists. exists (dy (if s then - n else n) (t + e)). split; [reflexivity|]. split; [apply HR; reflexivity|].
      apply HR'. rewrite (exponent_bytes_fits _ F). rewrite (Z.add_comm t e). reflexivity.
  - (* saturated *)
    split; [|intros (_ & H & _); exfalso; apply (Qlt_irrefl (dy n t)); eapply Qlt_le_trans; eassumption].
    assert (Ht: 0 <= t /\ 2 ^ 64 <= n * 2 ^ t).
    { destruct (Z_lt_le_dec t 0) as [L|L].
      - exfalso. apply (Qlt_irrefl (dy n t)). eapply Qlt_le_trans; [|exact HS]. apply dy_lt_64; [assumption | assumption | lia].
      - split; [exact L|]. destruct (Z_lt_le_dec (n * 2 ^ t) (2 ^ 64)) as [M|M]; [|exact M].
        exfalso. apply (Qlt_irrefl (dy n t)). eapply Qlt_le_trans; [|exact HS]. apply dy_lt_64; auto. }
    destruct Ht as [Ht HL].
    pose proof (large_octets s k ek e n i Ek I Ht Pn HL On G ltac:(lia)) as W.
    intros SV. exfalso.
    destruct (exponent_bytes_spec e) as (l & Ll & Hl & Len & Eok & _).
    assert (Eb: blen (exponent_bytes e) = exponent_octets (Z.abs e)) by (unfold blen; lia).
    set (o := exponent_octets (Z.abs e)) in *.
    assert (FO: first_octet (mk_parts s 0 0 e (2 ^ 64 - 1)) (o - 1) = (128 + (if s then 64 else 0) + (o - 1))%N)
      by (unfold first_octet; cbn [bp_negative bp_base_code bp_factor]; lia).
    destruct (N.eqb_spec o 4) as [O4|O4].
    + (* nine octets of mantissa *)
      rewrite O4 in W. cbn [app] in W. set (cb := first_octet _ _ :: _) in W.
      assert (Cok: bytes_ok cb).
      { unfold cb. constructor; [rewrite O4 in FO; rewrite FO; destruct s; cbn; lia|]. constructor; [reflexivity|].
        apply bytes_ok_app. split; [exact Eok | repeat constructor]. }
      rewrite (survives_read _ cb) in SV; [|apply written_unfold; exact W | unfold cb; rewrite !blen_cons, blen_app, Eb, O4; reflexivity | exact Cok].
      destruct SV as (r' & q & E & _). unfold read_content, cb, decode_real in E. rewrite O4 in FO. rewrite FO in E.
      replace ((128 + (if s then 64 else 0) + (4 - 1)) / 128 mod 2 =? 1)%N with true in E by (destruct s; reflexivity).
      unfold decode_binary in E. replace ((128 + (if s then 64 else 0) + (4 - 1)) mod 4 + 1)%N with 4%N in E by (destruct s; reflexivity).
      rewrite blen_cons, blen_app, Eb, O4 in E. change (blen ones) with 8%N in E. change (1 + (4 + 8) <=? 4)%N with false in E. cbv iota in E.
      destruct (_ =? 3)%N in E; [discriminate|]. apply bind_ok in E as (e' & _ & E).
      rewrite skipn_cons_4 in E by (unfold blen in Eb; lia). discriminate.
    + cbn [app] in W. 
      assert (IP: in_parts (mk_parts s 0 0 (twos (exponent_bytes e)) (2 ^ 64 - 1)) (exponent_bytes e) ones).
      { unfold in_parts. cbn [bp_base_code bp_factor bp_exponent bp_number]. repeat split; try discriminate; try assumption; try (repeat constructor).
        intro X. rewrite X in Len. cbn in Len. lia. }
      set (cb := first_octet _ _ :: _) in W.
      assert (SF: short_form (mk_parts s 0 0 (twos (exponent_bytes e)) (2 ^ 64 - 1)) (exponent_bytes e) ones cb).
      { split; [exact IP|]. exists (o - 1)%N. split; [lia|]. split; [lia | reflexivity]. }
      assert (Cok: bytes_ok cb).
      { unfold cb. constructor; [rewrite FO; destruct s; cbn; lia|]. apply bytes_ok_app. split; [exact Eok | repeat constructor]. }
      rewrite (survives_read _ cb) in SV; [|apply written_unfold; exact W | unfold cb; rewrite !blen_cons, blen_app; change (blen ones) with 8%N; lia | exact Cok].
      destruct SV as (r' & q & E & H1 & H2). apply HR in H1. rewrite (short_read _ _ _ _ SF) in E. cbn [bp_negative bp_base_code bp_factor bp_exponent] in E.
      unfold read_as in E. change (8 <? blen ones)%N with false in E. cbv iota zeta in E. change (wrap_i64 (val ones)) with (-1) in E.
      change (-1 =? - 2 ^ 63) with false in E. rewrite andb_false_r in E. injection E as <-.
      set (x := twos (exponent_bytes e) * log_base 0) in *.
      assert (V: f64_value (scaled (if s then - -1 else -1) 0) = Some (inject_Z (if s then 4503599627370496 else -4503599627370496) * 2 ^ (-52))%Q) by (destruct s; vm_compute; reflexivity).
      apply (holds_binary _ _ _ _ _ V) in H2. rewrite H1 in H2.
      change (dy (if s then 4503599627370496 else -4503599627370496) (-52) * 2 ^ x == dy (if s then - n else n) (t + e))%Q in H2.
      rewrite dy_scale in H2.
      assert (S1: forall z y, (0 < dy z y)%Q <-> 0 < z).
      { intros z y. rewrite <- (dy_lt 0 z y). unfold dy at 1. setoid_replace (dy 0 y) with 0%Q by (unfold dy; ring). unfold dy. reflexivity. }
      destruct s.
      * assert (0 < dy 4503599627370496 (-52 + x))%Q as P by (apply S1; lia). rewrite H2 in P. apply S1 in P. lia.
      * assert (0 < dy n (t + e))%Q as P by (apply S1; lia). rewrite <- H2 in P. apply S1 in P. lia.
Qed.
Print Assumptions C40_base2.

(** 5/8 * 2^-3: written as number 5, exponent -6. *)
Example C40_case :
  let m := S754_finite false 5629499534213120 (-53) in
  valid_binary 53 1024 m = true
  /\ (exists v, f64_value m = Some v /\ (Qabs v == inject_Z 5 * 2 ^ (-3))%Q /\ (2 ^ (-52) < Qabs v)%Q /\ (Qabs v < 2 ^ 64)%Q)
  /\ exponent_fits (-3 + -3)
  /\ to_vec (tober_real (RBinary m 2 (-3) 2)) = Ok [9; 3; 128; 250; 5]%N
  /\ parse_der real_codec [9; 3; 128; 250; 5]%N = Ok ([], RBinary (f64_of_Z 5) 2 (-6) 2).
Proof.
  split; [vm_compute; reflexivity|]. split; [eexists; split; [reflexivity|]; vm_compute; auto|].
  split; [unfold exponent_fits; lia|]. split; vm_compute; reflexivity.
Qed.

(** The encoding base 8 or 16: the number read back is the one written only if the exponent is [(c + 1) q] for a small [q]
    ([q] is the quotient by [c], so below [c]) and the mantissa times [2 ^ q] is within range. *)
Lemma written_other m e b cb : real_binary_content m e b = Ok cb -> real_write (RBinary m 2 e b) = Ok (cb, blen cb).
Proof. intros E. unfold real_write. change (2 =? 10)%N with false. change (negb (2 =? 2)%N) with false. cbv iota. rewrite E. reflexivity. Qed.

(** A mantissa cut to 2^64 - 1 is read back with the other sign. *)
Lemma saturated_lost s c b code e0 cb m e n y : base_row c b code -> Z.abs e0 < 2 ^ 24 -> 0 < n ->
  cb = first_octet (mk_parts s code 0 e0 (2 ^ 64 - 1)) (exponent_octets (Z.abs e0) - 1)
       :: (if (exponent_octets (Z.abs e0) =? 4)%N then [4%N] else []) ++ exponent_bytes e0 ++ ones ->
  real_binary_content m e b = Ok cb -> (forall q, holds (RBinary m 2 e b) q -> (q == dy (if s then - n else n) y)%Q) ->
  ~ survives (RBinary m 2 e b).
Proof.
  intros HB HE Pn Ecb W HR SV. destruct (base_row_facts c b code HB) as (Hc & Hcode & _).
  destruct (exponent_bytes_spec e0) as (l & Ll & Hl & Len & Eok & _).
  assert (Eb: blen (exponent_bytes e0) = exponent_octets (Z.abs e0)) by (unfold blen; lia).
  assert (O4: (exponent_octets (Z.abs e0) =? 4)%N = false).
  { unfold exponent_octets. change (2 ^ 24) with 16777216 in HE. destruct (Z.abs e0 <=? 255); [reflexivity|].
    destruct (Z.abs e0 <=? 65535); [reflexivity|]. destruct (Z.leb_spec (Z.abs e0) 16777215); [reflexivity | lia]. }
  rewrite O4 in Ecb. cbn [app] in Ecb. apply N.eqb_neq in O4. set (o := exponent_octets (Z.abs e0)) in *.
  assert (IP: in_parts (mk_parts s code 0 (twos (exponent_bytes e0)) (2 ^ 64 - 1)) (exponent_bytes e0) ones).
  { unfold in_parts. cbn [bp_base_code bp_factor bp_exponent bp_number]. repeat split; try discriminate; try assumption; try (repeat constructor).
    intro X. rewrite X in Len. cbn in Len. lia. }
  assert (SF: short_form (mk_parts s code 0 (twos (exponent_bytes e0)) (2 ^ 64 - 1)) (exponent_bytes e0) ones cb).
  { split; [exact IP|]. exists (o - 1)%N. split; [lia|]. split; [lia | exact Ecb]. }
  assert (Cok: bytes_ok cb).
  { rewrite Ecb. constructor; [unfold first_octet; cbn [bp_negative bp_base_code bp_factor]; destruct s; lia|]. apply bytes_ok_app. split; [exact Eok | repeat constructor]. }
  rewrite (survives_read _ cb) in SV; [|apply written_other; exact W | rewrite Ecb, !blen_cons, blen_app; change (blen ones) with 8%N; lia | exact Cok].
  destruct SV as (r' & q & E & H1 & H2). apply HR in H1. rewrite (short_read _ _ _ _ SF) in E. cbn [bp_negative bp_base_code bp_factor bp_exponent] in E.
  unfold read_as in E. change (8 <? blen ones)%N with false in E. cbv iota zeta in E. change (wrap_i64 (val ones)) with (-1) in E.
  change (-1 =? - 2 ^ 63) with false in E. rewrite andb_false_r in E. injection E as <-.
  set (x := twos (exponent_bytes e0) * log_base code) in *.
  assert (V: f64_value (scaled (if s then - -1 else -1) 0) = Some (inject_Z (if s then 4503599627370496 else -4503599627370496) * 2 ^ (-52))%Q) by (destruct s; vm_compute; reflexivity).
  apply (holds_binary _ _ _ _ _ V) in H2. rewrite H1 in H2.
  change (dy (if s then 4503599627370496 else -4503599627370496) (-52) * 2 ^ x == dy (if s then - n else n) y)%Q in H2.
  rewrite dy_scale in H2.
  assert (S1: forall z y, (0 < dy z y)%Q <-> 0 < z).
  { intros z y'. rewrite <- (dy_lt 0 z y'). unfold dy at 1. setoid_replace (dy 0 y') with 0%Q by (unfold dy; ring). unfold dy. reflexivity. }
  destruct s.
  - assert (0 < dy 4503599627370496 (-52 + x))%Q as P by (apply S1; lia). rewrite H2 in P. apply S1 in P. lia.
  - assert (0 < dy n y)%Q as P by (apply S1; lia). rewrite <- H2 in P. apply S1 in P. lia.
Qed.

Lemma unwritten m e b : (forall cb, real_binary_content m e b <> Ok cb) -> ~ survives (RBinary m 2 e b).
Proof.
  intros N (enc & r' & q & E & _). unfold to_vec, encode in E.
  unfold tober_real, real_write in E. cbn [tb_write_content] in E. change (2 =? 10)%N with false in E. change (negb (2 =? 2)%N) with false in E. cbv iota in E.
  destruct (real_binary_content m e b) as [cb| | |]; [exact (N cb eq_refl)| | |]; cbn [bind wseq] in E; destruct (write_header _ ) as [[? ?]| | |]; discriminate.
Qed.

(** An exponent written in one octet because its absolute value takes one, but read as a signed octet. *)
Definition misread (E : Z) : Z := if (128 <=? E) && (E <=? 255) then -256 else if (-255 <=? E) && (E <=? -129) then 256 else 0.

Lemma twos_misread E : -2000 < E < 2000 -> twos (exponent_bytes E) = E + misread E.
Proof.
  intros H. set (f := fun k => let E := Z.of_nat k - 2000 in twos (exponent_bytes E) =? E + misread E).
  assert (A : forallb f (seq 0 4000) = true) by (vm_compute; reflexivity).
  rewrite forallb_forall in A. specialize (A (Z.to_nat (E + 2000)) ltac:(apply in_seq; lia)). unfold f in A. cbv zeta in A.
  rewrite Z2Nat.id in A by lia. replace (E + 2000 - 2000) with E in A by lia. apply Z.eqb_eq, A.
Qed.

Theorem C40_base8_16 (m : f64) (e : Z) (v : Q) (n t c : Z) (b : N) :
  (c, b) = (3, 8%N) \/ (c, b) = (4, 16%N) ->
  valid_binary 53 1024 m = true -> f64_value m = Some v -> Z.odd n = true -> 0 < n ->
  (Qabs v == inject_Z n * 2 ^ t)%Q -> - 2 ^ 31 < e < 2 ^ 31 ->
  let q := Z.quot e c in
  (survives (RBinary m 2 e b) <->
   e = (c + 1) * q /\ (2 ^ (-52) < Qabs v * 2 ^ q)%Q /\ (Qabs v * 2 ^ q < 2 ^ 64)%Q).
Proof.
  intros HB HV Hv On Pn Hn He q. change (Qabs v == dy n t)%Q in Hn.
  destruct m as [s|s| |s k ek]; try discriminate.
  { injection Hv as <-. exfalso. change (Qabs 0) with 0%Q in Hn.
    assert (0 < dy n t)%Q; [|rewrite <- Hn in H; discriminate]. unfold dy. setoid_replace 0%Q with (0 * 2 ^ t)%Q by ring.
    apply Qmult_lt_r; [apply two_pos|]. change 0%Q with (inject_Z 0). rewrite <- Zlt_Qlt. exact Pn. }
  injection Hv as <-. cbn [valid_binary] in HV.
  destruct (odd_part k) as (n' & i & On' & Pn' & I & Ek).
  assert (EV: (inject_Z (if s then Z.neg k else Z.pos k) * 2 ^ ek == dy (if s then - n' else n') (ek + i))%Q) by (apply finite_dy; assumption).
  assert (EA: (Qabs (inject_Z (if s then Z.neg k else Z.pos k) * 2 ^ ek) == dy n' (ek + i))%Q).
  { rewrite EV, abs_dy. replace (Z.abs (if s then - n' else n')) with n' by (destruct s; lia). reflexivity. }
  rewrite EA in *. apply dy_odd in Hn as [-> <-]; [|assumption|assumption]. clear On' Pn' EA.
  set (t := ek + i) in *. rewrite dy_scale.
  assert (HBR: exists code, base_row c b code /\ b <> 2%N /\ (0 < b < 2 ^ 32)%N /\ 3 <= c <= 4).
  { destruct HB as [X|X]; injection X as -> ->; [exists 1%N | exists 2%N]; (split; [unfold base_row; cbn; tauto | split; [discriminate | split; lia]]). }
  destruct HBR as (code & HR & Hb2 & Hb & Hc). clear HB.
  assert (HV0: forall x, holds (RBinary (S754_finite s k ek) 2 e b) x <-> (x == dy (if s then - n else n) (t + e))%Q).
  { intros x. unfold holds, real_value, f64_value. change (inject_Z (Z.of_N 2)) with 2%Q. split.
    - intros (y & E & H). injection E as <-. rewrite <- H, EV. apply dy_scale.
    - intros H. eexists. split; [reflexivity|]. rewrite H, EV. apply dy_scale. }
  assert (Kk : Z.pos k < 2 ^ 53).
  { pose proof (bounded_cases _ _ HV) as [_ HC]. unfold normal in HC. change (2 ^ 53) with (2 * 2 ^ 52) in *. lia. }
  destruct (normal_form (Z.pos k) ltac:(lia)) as (k1 & j & Nk & Hj & Ek1).
  set (e1 := ek - j). assert (Ek1' : Z.pos k1 = Z.pos k * 2 ^ (ek - e1)) by (replace (ek - e1) with j by (unfold e1; lia); exact Ek1).
  assert (Ek2 : Z.pos k1 = n * 2 ^ (i + j)) by (rewrite Z.pow_add_r by lia; rewrite Ek1, Ek; ring).
  assert (Hij: i + j < 53). { destruct (Z_lt_le_dec (i + j) 53); [assumption|]. assert (2 ^ 53 <= 2 ^ (i + j)) by (apply Z.pow_le_mono_r; lia). unfold normal in Nk. nia. }
  assert (Hn53: n < 2 ^ 53). { assert (0 < 2 ^ (i + j)) by (apply Z.pow_pos_nonneg; lia). unfold normal in Nk. nia. }
  assert (EKQ: (dy n (t + q) == dy (Z.pos k1) (e1 + q))%Q).
  { rewrite Ek2, dy_shift by lia. replace (e1 + q + (i + j)) with (t + q) by (unfold t, e1; lia). reflexivity. }
  assert (He': i32_min < e <= i32_max) by (unfold i32_min, i32_max; lia).
  pose proof (change_base_8_16 c b code (S754_finite false k ek) e HR Hb2 He') as HCB. fold q in HCB.
  assert (E52: (2 ^ (-52) == dy 1 (-52))%Q) by (unfold dy; ring). assert (E64: (2 ^ 64 == dy 1 64)%Q) by reflexivity.
  unfold normal in Nk.
  assert (HQ : Z.abs (e - c * q) < c).
  { pose proof (Z.quot_rem' e c) as QR. pose proof (Z.rem_bound_abs e c ltac:(lia)) as RB. fold q in QR.
    generalize dependent (Z.rem e c). clear - Hc. intros r QR RB. nia. }
  assert (HSm : e = (c + 1) * q -> -4 < q < 4) by (clear - HQ Hc; clearbody q; nia).
  destruct (fmul_powi k ek k1 e1 q Nk ltac:(unfold e1; lia) Ek1' HV) as [(Q1 & Q2 & M)|[(Q & M)|(Q & M)]].
  - rewrite M in HCB. assert (BD : bounded 53 1024 k1 (e1 + q) = true) by (apply bounded_normal; [exact Nk | lia]).
    pose proof (epsilon_iff k1 (e1 + q) BD) as HEps.
    destruct (f64_gt (S754_finite false k1 (e1 + q)) f64_epsilon) eqn:G.
    2:{ split; [|intros (_ & H & _); rewrite EKQ in H; apply HEps in H; discriminate].
        intros SV. exfalso. revert SV. apply unwritten. intros cb.
        rewrite (tiny_content (S754_finite s k ek) e b _ _ HCB); [discriminate|]. right. right. exists k1, (e1 + q). split; [reflexivity|].
        split; [change (2 ^ 54) with (2 * 2 ^ 53); lia|]. split; [|exact G].
        destruct (Z_le_gt_dec (e1 + q) (-104)); [assumption|]. rewrite above_epsilon_intro in G by lia. discriminate. }
    assert (HG: (2 ^ (-52) < dy n (t + q))%Q) by (rewrite EKQ; apply HEps; reflexivity).
    destruct (above_epsilon k1 (e1 + q) BD G) as (_ & K1 & K2).
    destruct (Qlt_le_dec (dy n (t + q)) (2 ^ 64)) as [HS|HS].
    + pose proof (proj1 (dy_lt_64 n (t + q) Pn Hn53) HS) as HS'.
      assert (T1 : -104 <= t + q < 64).
      { split; [unfold t, e1 in *; lia|]. destruct (Z_lt_le_dec (t + q) 64) as [L|L]; [exact L|].
        assert (Pw : 2 ^ 64 <= 2 ^ (t + q)) by (apply Z.pow_le_mono_r; lia). specialize (HS' ltac:(lia)).
        clear - HS' Pw Pn. generalize dependent (2 ^ (t + q)). intros w HS' Pw. nia. }
      set (E := q + (t + q) / c) in *.
      assert (HE1 : q - 104 <= E < q + 64).
      { unfold E. assert (D : -104 <= (t + q) / c < 64).
        { clear - T1 Hc. generalize dependent (t + q). intros y T1. split; [apply Z.div_le_lower_bound; lia | apply Z.div_lt_upper_bound; lia]. }
        clear - D. generalize dependent ((t + q) / c). intros d D. clearbody q. lia. }
      assert (HE0 : -2000 < E < 2000) by (clear - HE1 Q1; clearbody q E; lia).
      assert (HM : e = (c + 1) * q + c * misread E <-> e = (c + 1) * q).
      { unfold misread. clear - HE1 HQ HSm Hc. clearbody q E.
        destruct (Z.leb_spec 128 E), (Z.leb_spec E 255), (Z.leb_spec (-255) E), (Z.leb_spec E (-129)); cbn [andb]; try lia; split; intros H'; nia. }
      assert (HE: Z.abs E < 2 ^ 24) by (clear - HE0; clearbody E; change (2 ^ 24) with 16777216; lia).
      assert (W: real_binary_content (S754_finite s k ek) e b = Ok
         (first_octet (mk_parts s code (Z.to_N ((e1 + q + (i + j)) mod c)) (q + (e1 + q + (i + j)) / c) (Z.to_N n)) (exponent_octets (Z.abs (q + (e1 + q + (i + j)) / c)) - 1)
          :: (if (exponent_octets (Z.abs (q + (e1 + q + (i + j)) / c)) =? 4)%N then [4%N] else []) ++ exponent_bytes (q + (e1 + q + (i + j)) / c) ++ drop_zeroes (be_bytes 8 (Z.to_N n)))).
      { apply (written_octets s k ek e b c code q k1 (e1 + q) n (i + j)); try assumption.
        - clear - Q2. clearbody q e1. lia.
        - clear - I Hj. lia.
        - clear - K1 K2. clearbody q e1. destruct (Z.eq_dec (e1 + q) (-104)); [right; auto | left; lia].
        - replace (e1 + q + (i + j)) with (t + q) by (clear; unfold t, e1; lia). exact HS'.
        - clear - Q1. clearbody q. unfold i32_min, i32_max. lia.
        - replace (e1 + q + (i + j)) with (t + q) by (clear; unfold t, e1; lia). fold E. clear - HE0. clearbody E. unfold i32_min, i32_max. change (2 ^ 31) with 2147483648. lia. }
      replace (e1 + q + (i + j)) with (t + q) in W by (clear; unfold t, e1; lia). fold E in W.
      assert (O4: (exponent_octets (Z.abs E) =? 4)%N = false).
      { clear - HE0. clearbody E. unfold exponent_octets. destruct (Z.abs E <=? 255); [reflexivity|].
        destruct (Z.abs E <=? 65535); [reflexivity|]. destruct (Z.leb_spec (Z.abs E) 16777215); [reflexivity | lia]. }
      rewrite O4 in W. cbn [app] in W. fold (mantissa_bytes n) in W.
      assert (Hmod: 0 <= (t + q) mod c <= 3). { assert (Pc : 0 < c) by (clear - Hc; lia). pose proof (Z.mod_pos_bound (t + q) c Pc) as D. clear - D Hc. generalize dependent ((t + q) mod c). intros d D. lia. }
      assert (Hn' : 0 < n < 2 ^ 53) by (split; assumption).
      destruct (written_read s c b code n ((t + q) mod c) E HR Hn' Hmod HE) as (Cok & CL & _ & CR).
      change (first_octet (mk_parts s code (Z.to_N ((t + q) mod c)) (twos (exponent_bytes E)) (Z.to_N n)))
        with (first_octet (mk_parts s code (Z.to_N ((t + q) mod c)) E (Z.to_N n))) in *.
      set (cb := first_octet _ _ :: _) in *.
      rewrite (survives_read _ cb); [|apply written_other; exact W | clear - CL; lia | exact Cok].
      unfold read_content. rewrite CR. rewrite (twos_misread E HE0).
      pose proof (scaled_value s n ((t + q) mod c) b ((E + misread E) * c) Hmod Hn') as SV.
      assert (EX : (t + q) mod c + (E + misread E) * c = t + ((c + 1) * q + c * misread E)).
      { unfold E at 1. assert (Nc : c <> 0) by (clear - Hc; lia). pose proof (Z.div_mod (t + q) c Nc) as D. generalize (misread E). clear - D. clearbody q t.
        generalize dependent ((t + q) mod c). generalize ((t + q) / c). intros d r D x. nia. }
      rewrite EX in SV. destruct SV as (q1 & E1 & H1). split.
      * intros (r' & x & R & H & (z & Ez & Hz)). injection R as <-. rewrite E1 in Ez. injection Ez as <-.
        apply HV0 in H. rewrite H, H1 in Hz. apply dy_odd in Hz as [_ Hz]; [|destruct s; [rewrite Z.odd_opp|]; assumption ..].
        split; [|split; [exact HG | exact HS]]. apply HM. clear - Hz. generalize dependent (misread E). intros x Hz. lia.
      * intros (Ee & _ & _). apply HM in Ee. eexists. exists (dy (if s then - n else n) (t + e)). split; [reflexivity|]. split; [apply HV0; reflexivity|].
        exists q1. split; [exact E1|]. rewrite H1, <- Ee. reflexivity.
    + split; [|intros (_ & _ & H); exfalso; apply (Qlt_irrefl (dy n (t + q))); eapply Qlt_le_trans; eassumption].
      assert (Ht: 0 <= t + q /\ 2 ^ 64 <= n * 2 ^ (t + q)).
      { destruct (Z_lt_le_dec (t + q) 0) as [L|L].
        - exfalso. apply (Qlt_irrefl (dy n (t + q))). eapply Qlt_le_trans; [|exact HS]. apply dy_lt_64; [assumption | assumption | lia].
        - split; [exact L|]. destruct (Z_lt_le_dec (n * 2 ^ (t + q)) (2 ^ 64)) as [M'|M']; [|exact M'].
          exfalso. apply (Qlt_irrefl (dy n (t + q))). eapply Qlt_le_trans; [|exact HS]. apply dy_lt_64; auto. }
      destruct Ht as [Ht HL]. intros SV. exfalso. revert SV.
      refine (saturated_lost s c b code q _ _ e n (t + e) HR ltac:(change (2 ^ 24) with 16777216; lia) Pn eq_refl _ (fun x => proj1 (HV0 x))).
      apply (saturated_octets s k ek e b c code q k1 (e1 + q) n (i + j)); try assumption.
      * lia.
      * unfold t, e1 in *; lia.
      * replace (e1 + q + (i + j)) with (t + q) by (unfold t, e1; lia). exact HL.
      * unfold i32_min, i32_max. change (2 ^ 31) with 2147483648. lia.
  - rewrite M in HCB. split.
    + intros SV. exfalso. revert SV. apply unwritten. intros cb. exact (endless_content (S754_finite s k ek) e b _ cb Hb HCB).
    + intros (H1 & _ & H3). apply HSm in H1. exfalso. destruct Q as [Q|Q]; [|lia]. rewrite EKQ, E64 in H3. apply dy_compare in H3.
      rewrite Z.min_r in H3 by lia. rewrite Z.sub_diag in H3. assert (Pw : 0 < 2 ^ (e1 + q - 64)) by (apply Z.pow_pos_nonneg; lia).
      change (2 ^ 52) with 4503599627370496 in *. clear - H3 Pw Nk. generalize dependent (2 ^ (e1 + q - 64)). change (2 ^ 0) with 1. intros w H3 Pw. nia.
  - split.
    + intros SV. exfalso. revert SV. apply unwritten. intros cb. rewrite (tiny_content (S754_finite s k ek) e b _ _ HCB); [discriminate|].
      destruct M as [M|(k' & e' & M & M1 & M2)]; [left; exact M|]. right. right. exists k', e'. split; [exact M|]. split; [exact M1|]. split; [lia|].
      rewrite M. unfold f64_gt, f64_epsilon, SFltb, SFcompare. destruct (Z.compare_spec (-104) e'); [lia | lia | reflexivity].
    + intros (H1 & H2 & _). apply HSm in H1. exfalso. destruct Q as [Q|Q]; [|lia]. rewrite EKQ, E52 in H2. apply dy_compare in H2.
      rewrite Z.min_r in H2 by lia. rewrite Z.sub_diag in H2. assert (2 ^ 53 <= 2 ^ (-52 - (e1 + q))) by (apply Z.pow_le_mono_r; lia).
      change (2 ^ 0) with 1 in H2. lia.
Qed.
Print Assumptions C40_base8_16.

(** 5/4 * 2^7, base 16: 5 = (4 + 1) * 1, so 2^5 survives and 2^7 does not. *)
Example C40_base16_case :
  let m := S754_finite false 5629499534213120 (-52) in
  Z.quot 5 4 = 1 /\ valid_binary 53 1024 m = true
  /\ (exists v, f64_value m = Some v /\ (Qabs v == inject_Z 5 * 2 ^ (-2))%Q
        /\ (2 ^ (-52) < Qabs v * 2 ^ 1)%Q /\ (Qabs v * 2 ^ 1 < 2 ^ 64)%Q)
  /\ to_vec (tober_real (RBinary m 2 5 16)) = Ok [9; 3; 172; 0; 5]%N
  /\ parse_der real_codec [9; 3; 172; 0; 5]%N = Ok ([], RBinary (f64_of_Z 40) 2 0 16)
  /\ to_vec (tober_real (RBinary m 2 7 16)) = Ok [9; 3; 172; 0; 5]%N.
Proof.
  split; [reflexivity|]. split; [vm_compute; reflexivity|]. split; [eexists; split; [reflexivity|]; repeat split; vm_compute; congruence|].
  repeat split; vm_compute; reflexivity.
Qed.

(** Values which do not survive: 1 * 2^200 (the exponent takes one octet and is read as -56), 2^64 * 2^0 (cut to
    2^64 - 1 and read as -1), 1 * 2^3 written in base 8 (read as 2^4). *)
Theorem C40_refuted :
  let one := f64_of_Z 1 in
  ~ survives (RBinary one 2 200 2) /\ ~ survives (RBinary (f64_of_Z (2 ^ 64)) 2 0 2) /\ ~ survives (RBinary one 2 3 8).
Proof.
  cbv zeta. split; [|split]; intros H.
  - apply (C40_base2 (f64_of_Z 1) 200 (inject_Z 4503599627370496 * 2 ^ (-52))%Q 1 0) in H; try reflexivity. destruct H as (_ & _ & H). vm_compute in H. intuition congruence.
  - apply (C40_base2 (f64_of_Z (2 ^ 64)) 0 (inject_Z 4503599627370496 * 2 ^ 12)%Q 1 64) in H; try reflexivity. destruct H as (_ & H & _); discriminate.
  - apply (C40_base8_16 (f64_of_Z 1) 3 (inject_Z 4503599627370496 * 2 ^ (-52))%Q 1 0 3 8) in H; try reflexivity; try tauto; try lia.
Qed.
Print Assumptions C40_refuted.

(** Exponents of four octets: 2^(2^24) is read as 2^(2^26 + 2^16). *)
Theorem C40_four_octets_refuted : ~ survives (RBinary (f64_of_Z 1) 2 (2 ^ 24) 2).
Proof.
  set (cb := [131; 4; 1; 0; 0; 0; 1]%N).
  assert (W: real_write (RBinary (f64_of_Z 1) 2 (2 ^ 24) 2) = Ok (cb, blen cb)) by (vm_compute; reflexivity).
  rewrite (survives_read _ cb W); [|reflexivity | repeat constructor].
  assert (R: read_content cb = Ok (RBinary (f64_of_Z 1) 2 67174400 2)) by (vm_compute; reflexivity).
  intros (r' & q & E & H1 & H2). rewrite R in E. injection E as <-.
  apply (holds_binary _ _ _ (dy (1 * 2 ^ 52) (-52))) in H1; [|vm_compute; reflexivity].
  apply (holds_binary _ _ _ (dy (1 * 2 ^ 52) (-52))) in H2; [|vm_compute; reflexivity].
  rewrite <- H2 in H1. rewrite !dy_scale in H1. rewrite !dy_shift in H1 by discriminate.
  match type of H1 with (dy _ ?a == dy _ ?b)%Q => destruct (dy_odd 1 a 1 b eq_refl eq_refl H1) as [_ X] end. discriminate X.
Qed.
Print Assumptions C40_four_octets_refuted.

(** A mantissa of at most 2^-52 makes the writer panic, another base than 2 and 10 makes it fail; the real is one
    the type can hold. *)
Theorem C40_no_encoding_refuted :
  to_vec (tober_real (RBinary f64_epsilon 2 0 2)) = Panic /\ (exists q, f64_value f64_epsilon = Some q /\ (q == 2 ^ (-52))%Q)
  /\ to_vec (tober_real (RBinary (f64_of_Z 1) 3 1 2)) = Err EInvalidValue.
Proof.
  split; [vm_compute; reflexivity|]. split; [eexists; split; reflexivity|]. vm_compute; reflexivity.
Qed.
Print Assumptions C40_no_encoding_refuted.
