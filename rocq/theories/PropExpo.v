(** C40, base 2, exponents of four octets: what is read of them. *)
From Coq Require Import SpecFloat QArith Qpower Qabs.
From Verif Require Import Base MHeader MEncode SHeader PArith PHeader PEncode MBer SBer PBer
  MInt SInt PCodec PInt MOid MText MReal PFloat SReal PReal PropTime PropReal PRound PSafe PropSafe PropReals.
Local Open Scope Z_scope.

Lemma dy_odd_multiple n e P e' : Z.odd n = true -> (dy n e == dy P e')%Q -> e' <= e /\ P = n * 2 ^ (e - e').
Proof.
  intros O H. destruct (Z_le_gt_dec e' e) as [L|L].
  - split; [exact L|]. replace e with (e' + (e - e')) in H by lia. rewrite <- dy_shift in H by lia. apply dy_inj in H. symmetry. exact H.
  - exfalso. replace e' with (e + (e' - e)) in H by lia. rewrite <- dy_shift in H by lia. apply dy_inj in H.
    replace (e' - e) with (Z.succ (e' - e - 1)) in H by lia. rewrite Z.pow_succ_r in H by lia.
    rewrite H, Z.odd_mul, Z.odd_mul in O. cbn [Z.odd andb] in O. rewrite andb_false_r in O. discriminate.
Qed.

(** The number that an integer of 63 bits is read as. *)
Lemma f64_of_63 (s : bool) p : 0 < p < 2 ^ 63 -> exists q P, f64_value (f64_of_Z (if s then - p else p)) = Some q
  /\ (q == inject_Z (if s then - P else P))%Q /\ 0 < P /\ Z.abs (P - p) * 2 ^ 53 <= p.
Proof.
  intros H. set (z := if s then - p else p). assert (Az : Z.abs z = p) by (unfold z; destruct s; lia). assert (Sz : (z <? 0) = s) by (unfold z; destruct s; lia).
  destruct (Z_lt_le_dec p (2 ^ 53)) as [L|L].
  - destruct (f64_of_small z) as (k & j & E & _ & Hj & Ek); [lia|]. rewrite E, Sz. eexists. exists p. split; [reflexivity|]. split; [|lia].
    change (dy (if s then Z.neg k else Z.pos k) (- j) == inject_Z (if s then - p else p))%Q.
    replace (if s then Z.neg k else Z.pos k) with ((if s then - p else p) * 2 ^ j) by (destruct s; [change (Z.neg k) with (- Z.pos k)|]; rewrite Ek, Az; ring).
    rewrite dy_shift by lia. replace (- j + j) with 0 by lia. unfold dy. change (2 ^ 0)%Q with 1%Q. ring.
  - assert (2 ^ 63 <= 2 ^ 64) by (apply Z.pow_le_mono_r; lia).
    destruct (f64_of_large z) as (k & e & E & _ & He & Cl & _); [lia|]. rewrite E, Sz. eexists. exists (Z.pos k * 2 ^ e). split; [reflexivity|].
    rewrite Az in Cl. split; [|split; [assert (0 < 2 ^ e) by (apply Z.pow_pos_nonneg; lia); nia|exact Cl]].
    change (dy (if s then Z.neg k else Z.pos k) e == inject_Z (if s then - (Z.pos k * 2 ^ e) else Z.pos k * 2 ^ e))%Q.
    replace (if s then - (Z.pos k * 2 ^ e) else Z.pos k * 2 ^ e) with ((if s then Z.neg k else Z.pos k) * 2 ^ e) by (destruct s; [change (Z.neg k) with (- Z.pos k)|]; ring).
    replace e with (0 + e) at 1 by lia. rewrite <- dy_shift by lia. unfold dy. change (2 ^ 0)%Q with 1%Q. ring.
Qed.

Lemma drop_zeroes_head bs : match drop_zeroes bs with [] => True | b :: _ => b <> 0%N end.
Proof. induction bs as [|b r IH]; cbn [drop_zeroes]; [exact I|]. destruct (N.eqb_spec b 0); [exact IH | assumption]. Qed.

Lemma mantissa_length n : 0 < n < 2 ^ 53 -> exists l, length (mantissa_bytes n) = S l /\ (l <= 6)%nat /\ pw l <= n < pw (S l).
Proof.
  intros H. destruct (mantissa_bytes_spec n) as (Mok & Mv & _ & Mne); [change (2 ^ 64) with (2048 * 2 ^ 53); lia|].
  pose proof (drop_zeroes_head (be_bytes 8 (Z.to_N n))) as Hd. fold (mantissa_bytes n) in Hd. pose proof (val_bound _ Mok) as B. rewrite Mv in B.
  destruct (mantissa_bytes n) as [|b r]; [congruence|]. exists (length r). cbn [length] in *.
  apply bytes_ok_cons in Mok as [_ Mr]. pose proof (val_bound r Mr). rewrite val_cons in Mv. pose proof (pw_pos (length r)) as PP.
  assert (Hl : pw (length r) <= n) by nia. split; [reflexivity|]. split; [|lia].
  destruct (le_lt_dec (length r) 6) as [L|L]; [exact L|]. exfalso. assert (pw 7 <= pw (length r)) by (apply pw_mono; lia).
  change (pw 7) with (8 * 2 ^ 53) in *. lia.
Qed.

(** The two numbers that come back by chance. *)
Definition lucky (n E : Z) : Prop := n = 6241208932418955 /\ E = 67372043 \/ n = 281543712968705 /\ E = 67372048.
Lemma lucky_numbers : 6241208932418955 * 127 = 11 * (2 ^ 56 - 1) /\ 281543712968705 * 4095 = 2 ^ 60 - 1.
Proof. split; reflexivity. Qed.

Lemma chance n l d D : 0 <= D <= 63 -> d = D + 4 -> Z.odd n = true -> (l <= 6)%nat -> pw l <= n < pw (S l) -> n < 2 ^ 53 ->
  Z.abs (n * 2 ^ D - (d * pw (S l) + n)) * 2 ^ 53 <= d * pw (S l) + n -> n = 6241208932418955 /\ D = 7 \/ n = 281543712968705 /\ D = 12.
Proof.
  intros HD -> O Hl Hn Hn53 Cl. apply Z.odd_spec in O as [h Oh]. change (2 ^ 53) with 9007199254740992 in *. rewrite pw_S in *.
  destruct (Z_lt_le_dec D 16) as [S|L].
  - assert (EL : In l [0; 1; 2; 3; 4; 5; 6]%nat) by (cbn; lia).
    assert (ED : In D [0; 1; 2; 3; 4; 5; 6; 7; 8; 9; 10; 11; 12; 13; 14; 15]) by (cbn; lia).
    cbn [In] in EL, ED. unfold pw in *.
    repeat (destruct EL as [<- |EL]); try contradiction;
      (repeat (destruct ED as [<- |ED]); try contradiction);
      match type of Cl with context [256 ^ ?x] => let y := eval vm_compute in (256 ^ x) in change (256 ^ x) with y in * end;
      match type of Cl with context [2 ^ ?x] => let y := eval vm_compute in (2 ^ x) in change (2 ^ x) with y in * end; lia.
  - exfalso. assert (P : 2 ^ 16 <= 2 ^ D) by (apply Z.pow_le_mono_r; lia). change (2 ^ 16) with 65536 in P. pose proof (pw_pos l).
    assert (X : 65536 * n <= n * 2 ^ D) by nia. assert (Y : (D + 4) * (256 * pw l) <= 17152 * n) by nia.
    assert (Y0 : 0 <= (D + 4) * (256 * pw l)) by nia. revert X Y Y0 Cl. generalize (n * 2 ^ D), ((D + 4) * (256 * pw l)). intros; lia.
Qed.

Lemma four_octets E : 2 ^ 24 <= Z.abs E -> exponent_octets (Z.abs E) = 4%N.
Proof.
  intros H. change (2 ^ 24) with 16777216 in H. unfold exponent_octets. destruct (Z.leb_spec (Z.abs E) 255); [lia|].
  destruct (Z.leb_spec (Z.abs E) 65535); [lia|]. destruct (Z.leb_spec (Z.abs E) 16777215); [lia|reflexivity].
Qed.

(** The octet that tells the length is read as the first octet of the exponent, and the last one of the exponent as the first of
    the number. *)
Lemma four_read (s : bool) n E : 0 < n < 2 ^ 53 -> 2 ^ 24 <= Z.abs E ->
  let U := E mod 2 ^ 32 in let cb := first_octet (mk_parts s 0 0 E (Z.to_N n)) 3 :: [4%N] ++ exponent_bytes E ++ mantissa_bytes n in
  bytes_ok cb /\ (blen cb < 2 ^ 64)%N
  /\ exists d, Z.of_N d = U mod 256 /\ (d < 256)%N /\ read_content cb = read_as s 0 0 (2 ^ 26 + U / 256) (d :: mantissa_bytes n).
Proof.
  intros Hn HE U cb. destruct (mantissa_bytes_spec n) as (Mok & Mv & Ml & Mne); [change (2 ^ 64) with (2048 * 2 ^ 53); lia|].
  assert (HU : 0 <= U < 2 ^ 32) by (apply Z.mod_pos_bound; reflexivity).
  assert (EB : exponent_bytes E = be_bytes 3 (Z.to_N U / 256) ++ [(Z.to_N U mod 256)%N]).
  { unfold exponent_bytes. rewrite (four_octets E HE). reflexivity. }
  set (d := (Z.to_N U mod 256)%N) in *. set (eo := 4%N :: be_bytes 3 (Z.to_N U / 256)).
  assert (Hd : (d < 256)%N) by (apply N.mod_lt; lia).
  assert (Lc : blen (be_bytes 3 (Z.to_N U / 256)) = 3%N) by (unfold blen; rewrite be_bytes_length; reflexivity).
  assert (Te : twos eo = 2 ^ 26 + U / 256).
  { unfold eo. rewrite twos_val_pos by reflexivity. rewrite val_cons, be_bytes_length, be_bytes_val.
    - rewrite N2Z.inj_div, Z2N.id by lia. reflexivity.
    - rewrite N2Z.inj_div, Z2N.id by lia. change (pw 3) with 16777216. change (Z.of_N 256) with 256. change (2 ^ 32) with 4294967296 in HU. lia. }
  assert (CB : cb = first_octet (mk_parts s 0 0 (twos eo) (Z.to_N (val (d :: mantissa_bytes n)))) 3 :: eo ++ (d :: mantissa_bytes n)).
  { unfold cb, eo. rewrite EB, <- app_assoc. reflexivity. }
  assert (Eok : bytes_ok eo) by (constructor; [reflexivity|apply be_bytes_ok]).
  assert (Dok : bytes_ok (d :: mantissa_bytes n)) by (constructor; assumption).
  assert (F : (first_octet (mk_parts s 0 0 E (Z.to_N n)) 3 < 256)%N) by (destruct s; reflexivity).
  assert (Cok : bytes_ok cb) by (rewrite CB; constructor; [exact F|apply bytes_ok_app; auto]).
  split; [exact Cok|]. split. { unfold cb. rewrite blen_cons, blen_app, blen_app, EB, blen_app, Lc. change (blen [4%N]) with 1%N. change (blen [d]) with 1%N. change (2 ^ 64)%N with 18446744073709551616%N. lia. }
  exists d. split; [unfold d; rewrite N2Z.inj_mod, Z2N.id by lia; reflexivity|]. split; [exact Hd|].
  unfold read_content. rewrite CB at 2. rewrite (decode_parts _ eo (d :: mantissa_bytes n) 3).
  - cbn [bp_negative bp_base_code bp_factor bp_exponent]. rewrite Te. reflexivity.
  - unfold in_parts. cbn [bp_base_code bp_factor bp_exponent bp_number]. split; [lia|]. split; [lia|]. split; [exact Eok|]. split; [exact Dok|].
    split; [discriminate|]. split; [discriminate|]. split; [reflexivity|]. unfold val. rewrite N2Z.id. reflexivity.
  - lia.
  - unfold eo. rewrite blen_cons, Lc. reflexivity.
  - cbn [bp_exponent bp_base_code]. rewrite Te. change (log_base 0) with 1. unfold i32_min, i32_max. change (2 ^ 32) with 4294967296 in HU. change (2 ^ 26) with 67108864. change (2 ^ 31) with 2147483648.
    assert (0 <= U / 256 < 16777216) by lia. lia.
Qed.

Lemma value_min : exists v, f64_value (scaled (- 2 ^ 63) 0) = Some v /\ (v == dy (-1) 63)%Q.
Proof. exists (inject_Z (-4503599627370496) * 2 ^ 11)%Q. split; [vm_compute; reflexivity|]. vm_compute. reflexivity. Qed.
Lemma ok_inj {A} (a b : A) : Ok a = Ok b -> a = b.
Proof. intros H. injection H as ->. reflexivity. Qed.

(** Which of them hold the number that was written. *)
Lemma four_kept (s : bool) n E : 0 < n < 2 ^ 53 -> Z.odd n = true -> 2 ^ 24 <= Z.abs E -> - 2 ^ 31 < E < 2 ^ 31 ->
  let cb := first_octet (mk_parts s 0 0 E (Z.to_N n)) 3 :: [4%N] ++ exponent_bytes E ++ mantissa_bytes n in
  (exists r, read_content cb = Ok r /\ holds r (dy (if s then - n else n) E)) <-> lucky n E.
Proof.
  intros Hn O HE HI cb. destruct (four_read s n E Hn HE) as (_ & _ & d & Ed & Hd & R). fold cb in R. set (U := E mod 2 ^ 32) in *. split.
  - intros (r & Er & Hr). rewrite R in Er. unfold read_as in Er. destruct (8 <? blen (d :: mantissa_bytes n))%N; [discriminate|]. cbv zeta in Er.
    destruct (mantissa_length n Hn) as (l & Ll & Hl & Bl). set (p := val (d :: mantissa_bytes n)) in *.
    destruct (mantissa_bytes_spec n) as (Mok & Mv & _ & _); [change (2 ^ 64) with (2048 * 2 ^ 53); lia|].
    assert (Ep : p = Z.of_N d * pw (S l) + n) by (unfold p; rewrite val_cons, Ll, Mv; reflexivity).
    assert (Pp : 0 < p < 2 ^ 64).
    { rewrite Ep. assert (pw (S l) <= pw 7) by (apply pw_mono; lia). change (pw 7) with (2 ^ 56) in *. change (2 ^ 64) with (256 * 2 ^ 56). change (2 ^ 53) with 9007199254740992 in *.
      pose proof (pw_pos (S l)). change (2 ^ 56) with 72057594037927936 in *. nia. }
    assert (SG : forall z x, (0 < dy z x)%Q <-> 0 < z).
    { intros z y. rewrite <- (dy_lt 0 z y). setoid_replace (dy 0 y) with 0%Q by (unfold dy; ring). reflexivity. }
    destruct (Z_lt_le_dec p (2 ^ 63)) as [L|L].
    + rewrite wrap_i64_small in Er by lia. destruct (s && (p =? - 2 ^ 63)); [discriminate|]. apply ok_inj in Er; subst r.
      destruct (f64_of_63 s p ltac:(lia)) as (q & P & Vq & Eq & PP & Cl). unfold scaled in Hr. change (0 =? 0)%N with true in Hr. cbv iota in Hr.
      apply (holds_binary _ _ _ _ _ Vq) in Hr. rewrite Eq in Hr. change (log_base 0) with 1 in Hr. rewrite Z.mul_1_r in Hr.
      set (e' := 2 ^ 26 + U / 256) in *. change (dy (if s then - P else P) e' == dy (if s then - n else n) E)%Q in Hr. symmetry in Hr.
      apply dy_odd_multiple in Hr as [Le HP]; [|destruct s; [rewrite Z.odd_opp|]; exact O]. set (D := E - e') in *.
      assert (HP' : P = n * 2 ^ D) by (destruct s; lia). clear HP.
      assert (0 <= U < 2 ^ 32) by (apply Z.mod_pos_bound; reflexivity).
      assert (E0 : 0 < E) by (unfold e' in Le; change (2 ^ 26) with 67108864 in Le; lia).
      assert (EU : U = E) by (apply Z.mod_small; change (2 ^ 32) with (2 * 2 ^ 31); lia).
      assert (D63 : D <= 63).
      { destruct (Z_le_gt_dec D 63) as [X|X]; [exact X|]. exfalso. assert (2 ^ 64 <= 2 ^ D) by (apply Z.pow_le_mono_r; lia). assert (2 ^ 64 <= P) by nia.
        change (2 ^ 64) with 18446744073709551616 in *. change (2 ^ 63) with 9223372036854775808 in *. change (2 ^ 53) with 9007199254740992 in *. lia. }
      assert (DD : Z.of_N d = D + 4 /\ E = 67372032 + Z.of_N d).
      { rewrite EU in Ed. unfold D, e' in *. rewrite EU in *. change (2 ^ 26) with 67108864 in *. lia. }
      destruct DD as [Dd DE]. rewrite Ep, HP', Dd in Cl. destruct (chance n l (D + 4) D ltac:(lia) eq_refl O Hl Bl ltac:(lia) Cl) as [[-> X]|[-> X]]; [left|right]; split; lia.
    + exfalso. assert (W : wrap_i64 p = p - 2 ^ 64).
      { unfold wrap_i64. change (2 ^ 64) with (2 * 2 ^ 63) in *. replace (p + 2 ^ 63) with (p - 2 ^ 63 + 1 * (2 * 2 ^ 63)) by lia. rewrite Z.mod_add by lia. rewrite Z.mod_small by lia. lia. }
      rewrite W in Er. destruct (Z.eqb_spec (p - 2 ^ 64) (- 2 ^ 63)) as [X|X].
      * (* 2^63: the value is -2^63 *)
        destruct s; cbn [andb] in Er; [discriminate|]. apply ok_inj in Er; subst r. rewrite X in Hr.
        destruct value_min as (v & V & V'). apply (holds_binary _ _ _ _ _ V) in Hr. rewrite V', dy_scale in Hr.
        assert (G : (0 < dy n E)%Q) by (apply SG; lia). rewrite <- Hr in G. apply SG in G. lia.
      * rewrite andb_false_r in Er. apply ok_inj in Er; subst r.
        assert (R63 : 0 < 2 ^ 64 - p < 2 ^ 63) by (change (2 ^ 64) with (2 * 2 ^ 63) in *; lia).
        destruct (f64_of_63 (negb s) (2 ^ 64 - p) R63) as (q & P & Vq & Eq & PP & _).
        replace (if negb s then - (2 ^ 64 - p) else 2 ^ 64 - p) with (if s then - (p - 2 ^ 64) else p - 2 ^ 64) in Vq by (destruct s; cbn [negb]; lia).
        unfold scaled in Hr. change (0 =? 0)%N with true in Hr. cbv iota in Hr. apply (holds_binary _ _ _ _ _ Vq) in Hr. rewrite Eq in Hr.
        set (x := (2 ^ 26 + U / 256) * log_base 0) in *. change (dy (if negb s then - P else P) x == dy (if s then - n else n) E)%Q in Hr.
        destruct s; cbn [negb] in Hr.
        -- assert (G : (0 < dy P x)%Q) by (apply SG; lia). rewrite Hr in G. apply SG in G. lia.
        -- assert (G : (0 < dy n E)%Q) by (apply SG; lia). rewrite <- Hr in G. apply SG in G. lia.
  - intros LK. assert (K : forall e' k f, (dy k (f + e') == dy n E)%Q -> forall m, f64_value m = Some (inject_Z (if s then - k else k) * 2 ^ f)%Q -> holds (RBinary m 2 e' 2) (dy (if s then - n else n) E)).
    { intros e' k f Hk m Hm. unfold holds, real_value. rewrite Hm. eexists. split; [reflexivity|]. change (inject_Z (Z.of_N 2)) with 2%Q.
      change (dy (if s then - k else k) f * 2 ^ e' == dy (if s then - n else n) E)%Q. rewrite dy_scale. destruct s; [|exact Hk].
      unfold dy in *. rewrite !inject_Z_opp. setoid_replace (- inject_Z k * 2 ^ (f + e'))%Q with (- (inject_Z k * 2 ^ (f + e')))%Q by ring. rewrite Hk. ring. }
    destruct LK as [[-> ->]|[-> ->]].
    + exists (RBinary (S754_finite s 6241208932418955 7) 2 67372036 2). split; [destruct s; vm_compute; reflexivity|].
      apply (K 67372036 6241208932418955 7); [change (7 + 67372036) with 67372043; apply Qeq_refl|destruct s; reflexivity].
    + exists (RBinary (S754_finite s (281543712968705 * 2 ^ 4) 8) 2 67372036 2). split; [destruct s; vm_compute; reflexivity|].
      apply (K 67372036 (281543712968705 * 2 ^ 4) 8); [rewrite dy_shift by lia; change (8 + 67372036 + 4) with 67372048; apply Qeq_refl|destruct s; reflexivity].
Qed.

(** The loops of the writer do the same steps whatever the exponent, so long as it stays in range. *)
Lemma as_i32_inv z v : as_i32 z = Ok v -> v = z /\ i32_min <= z <= i32_max.
Proof. unfold as_i32. intros H. destruct ((i32_min <=? z) && (z <=? i32_max)) eqn:B; [|discriminate]. injection H as <-. lia. Qed.
Lemma drop_steps fuel b : forall m e m1 e1 f m2 f2, drop_loop fuel b m e = Ok (m1, e1) -> drop_loop fuel b m f = Ok (m2, f2) -> m1 = m2 /\ e1 - e = f2 - f.
Proof.
  induction fuel as [|n IH]; intros m e m1 e1 f m2 f2 H1 H2; cbn [drop_loop] in *; [discriminate|].
  destruct (f64_gt (SFabs m) f64_epsilon); [|injection H1 as <- <-; injection H2 as <- <-; split; [reflexivity|lia]].
  destruct (has_fract m); [|injection H1 as <- <-; injection H2 as <- <-; split; [reflexivity|lia]].
  apply bind_ok in H1 as (a & A & H1). apply bind_ok in H2 as (c & C & H2). apply as_i32_inv in A as [-> _]. apply as_i32_inv in C as [-> _].
  destruct (IH _ _ _ _ _ _ _ H1 H2) as [-> X]. split; [reflexivity|lia].
Qed.
Lemma shift_steps fuel k : forall m e m1 e1 f m2 f2, shift_loop fuel k m e = Ok (m1, e1) -> shift_loop fuel k m f = Ok (m2, f2) -> m1 = m2 /\ e1 - e = f2 - f.
Proof.
  induction fuel as [|n IH]; intros m e m1 e1 f m2 f2 H1 H2; cbn [shift_loop] in *; [discriminate|].
  destruct (m mod 2 ^ k =? 0)%N; [|injection H1 as <- <-; injection H2 as <- <-; split; [reflexivity|lia]].
  apply bind_ok in H1 as (a & A & H1). apply bind_ok in H2 as (c & C & H2). apply as_i32_inv in A as [-> _]. apply as_i32_inv in C as [-> _].
  destruct (IH _ _ _ _ _ _ _ H1 H2) as [-> X]. split; [reflexivity|lia].
Qed.

(** So the exponent that is written fits an i32, and so does its absolute value. *)
Lemma written_in_range s k ek n i e cb : normal k -> ek <= 971 -> Z.odd n = true -> 0 <= i -> Z.pos k = n * 2 ^ i ->
  (-104 < ek \/ ek = -104 /\ 2 ^ 52 < Z.pos k) -> (0 <= ek + i -> n * 2 ^ (ek + i) < 2 ^ 64) ->
  real_binary_content (S754_finite s k ek) e 2 = Ok cb -> i32_min < e + (ek + i) <= i32_max.
Proof.
  intros Hk Hek O I Ek Heps Hbig W. set (t := ek + i) in *.
  assert (Pn: 0 < n) by (assert (0 < 2 ^ i) by (apply Z.pow_pos_nonneg; lia); nia).
  assert (Hn: n < 2 ^ 53). { destruct Hk as [_ Hk]. assert (1 <= 2 ^ i) by (assert (0 < 2 ^ i) by (apply Z.pow_pos_nonneg; lia); lia). nia. }
  set (j := Z.max 0 (- t)). set (u := t + j).
  assert (Hj : 0 <= j <= 104) by (unfold j, t; lia). assert (Hu : 0 <= u) by (unfold u, j; lia).
  assert (Hub : n * 2 ^ u < 2 ^ 64).
  { destruct (Z_lt_le_dec t 0) as [L|L].
    - replace u with 0 by (unfold u, j; lia). change (2 ^ 64) with (2048 * 2 ^ 53). lia.
    - replace u with t by (unfold u, j; lia). auto. }
  assert (Hu64: u < 64). { destruct (Z_lt_le_dec u 64); [assumption|]. assert (2 ^ 64 <= 2 ^ u) by (apply Z.pow_le_mono_r; lia). nia. }
  assert (D0 : drop_loop 1200 2 (S754_finite false k ek) 0 = Ok (S754_finite false k (ek + 1 * j), 0 - j)).
  { rewrite (drop_loop_ok 1 2 n ltac:(left; reflexivity) O (Z.to_nat j) k ek i 0 1200); rewrite ?Z2Nat.id by lia; try assumption; try (unfold i32_min, i32_max; lia); [reflexivity|].
    unfold steps. rewrite Z.div_1_r. fold t. unfold j. lia. }
  assert (S0 : shift_loop 64 1 (Z.to_N (n * 2 ^ u)) 0 = Ok (Z.to_N (n * 2 ^ (u mod 1)), 0 + u)).
  { pose proof (shift_loop_ok 1 n ltac:(lia) O Pn (Z.to_nat u) u 0 64) as G. rewrite Z2Nat.id in G by lia. apply G; unfold i32_min, i32_max; lia. }
  unfold real_binary_content, drop_floating_point in W. cbn [SFabs] in W. rewrite change_base_2 in W. cbn [bind] in W.
  apply bind_ok in W as ([[neg m] e1] & W1 & W). apply bind_ok in W1 as ([m1 e2] & D1 & W1). injection W1 as _ Em Ee. subst m e1.
  destruct (drop_steps _ _ _ _ _ _ _ _ _ D1 D0) as [-> X1]. rewrite Z.mul_1_l in W.
  rewrite (f64_as_u64_odd k (ek + j) n i) in W; try assumption; try (replace (ek + j + i) with u by (unfold u, t; lia); lia).
  replace (ek + j + i) with u in W by (unfold u, t; lia). destruct (Z.to_N (n * 2 ^ u) =? 0)%N; [discriminate|]. change (2 =? 2)%N with true in W. cbv iota zeta in W.
  apply bind_ok in W as ([m2 e3] & S1 & W). destruct (shift_steps _ _ _ _ _ _ _ _ _ S1 S0) as [-> X2].
  destruct (scale_loop 5 _ 0) as [m3 sf]. apply bind_ok in W as (a & A & _). apply as_i32_inv in A as [_ A].
  assert (e3 = e + t) by (unfold u in X2; lia). unfold i32_min, i32_max in *. lia.
Qed.

Lemma large_in_range s k ek e n i cb : Z.pos k = n * 2 ^ i -> 0 <= i -> 0 <= ek + i -> 0 < n -> 2 ^ 64 <= n * 2 ^ (ek + i) ->
  Z.odd n = true -> real_binary_content (S754_finite s k ek) e 2 = Ok cb -> i32_min < e <= i32_max.
Proof.
  intros Ek I T Pn L O W. unfold real_binary_content, drop_floating_point in W. cbn [SFabs] in W. rewrite change_base_2 in W. cbn [bind] in W.
  assert (HF: has_fract (S754_finite false k ek) = false) by (rewrite (has_fract_odd false k ek n i) by assumption; lia).
  rewrite drop_loop_stop in W by (discriminate || (right; exact HF)). cbn [bind] in W.
  rewrite (f64_as_u64_large k ek n i) in W by assumption. replace (2 ^ 64 - 1 =? 0)%N with false in W by reflexivity. cbv iota in W.
  assert (SH : shift_loop 64 1 (2 ^ 64 - 1) e = Ok ((2 ^ 64 - 1)%N, e)) by reflexivity. replace (if (2 =? 2)%N then 1%N else if (2 =? 8)%N then 3%N else 4%N) with 1%N in W by reflexivity.
  rewrite SH in W. cbn [bind] in W. destruct (scale_loop 5 _ 0) as [m3 sf]. apply bind_ok in W as (a & A & _). apply as_i32_inv in A as [_ A]. unfold i32_min, i32_max in *. lia.
Qed.

(** Base 2, every mantissa and every exponent an i32 can hold. *)
Theorem C40_base2_all (m : f64) (e : Z) (v : Q) (n t : Z) :
  valid_binary 53 1024 m = true -> f64_value m = Some v -> Z.odd n = true -> 0 < n ->
  (Qabs v == inject_Z n * 2 ^ t)%Q -> - 2 ^ 31 <= e < 2 ^ 31 ->
  (survives (RBinary m 2 e 2) <-> (2 ^ (-52) < Qabs v)%Q /\ (Qabs v < 2 ^ 64)%Q /\ (exponent_fits (e + t) \/ lucky n (e + t))).
Proof.
  intros HV Hv On Pn Hn He.
  destruct (Z_lt_le_dec (Z.abs (e + t)) (2 ^ 24)) as [HE|HE].
  { rewrite (C40_base2 m e v n t HV Hv On Pn Hn HE). change (2 ^ 24) with 16777216 in HE. unfold lucky. split; intros (A & B & C); (split; [exact A|]; split; [exact B|]).
    - left. exact C.
    - destruct C as [C|[[_ C]|[_ C]]]; [exact C|lia|lia]. }
  assert (NF : ~ exponent_fits (e + t)) by (change (2 ^ 24) with 16777216 in HE; unfold exponent_fits; lia).
  change (Qabs v == dy n t)%Q in Hn. destruct m as [s|s| |s k ek]; try discriminate.
  { injection Hv as <-. exfalso. change (Qabs 0) with 0%Q in Hn.
    assert (0 < dy n t)%Q; [|rewrite <- Hn in H; discriminate]. unfold dy. setoid_replace 0%Q with (0 * 2 ^ t)%Q by ring.
    apply Qmult_lt_r; [apply two_pos|]. change 0%Q with (inject_Z 0). rewrite <- Zlt_Qlt. exact Pn. }
  injection Hv as <-. cbn [valid_binary] in HV.
  destruct (odd_part k) as (n' & i & On' & Pn' & I & Ek).
  assert (EV: (inject_Z (if s then Z.neg k else Z.pos k) * 2 ^ ek == dy (if s then - n' else n') (ek + i))%Q) by (apply finite_dy; assumption).
  assert (EA: (Qabs (inject_Z (if s then Z.neg k else Z.pos k) * 2 ^ ek) == dy n' (ek + i))%Q).
  { rewrite EV, abs_dy. replace (Z.abs (if s then - n' else n')) with n' by (destruct s; lia). reflexivity. }
  rewrite EA in Hn. apply dy_odd in Hn as [-> <-]; [|assumption|assumption]. clear On' Pn'.
  rewrite EA. clear EA. set (t := ek + i) in *.
  assert (EK: (dy n t == dy (Z.pos k) ek)%Q) by (rewrite Ek; symmetry; apply dy_shift; exact I).
  assert (HR: forall q, holds (RBinary (S754_finite s k ek) 2 e 2) q <-> (q == dy (if s then - n else n) (e + t))%Q).
  { intros q. unfold holds, real_value, f64_value. change (inject_Z (Z.of_N 2)) with 2%Q. rewrite (Z.add_comm e t). split.
    - intros (q' & E & H). injection E as <-. rewrite <- H, EV. apply dy_scale.
    - intros H. eexists. split; [reflexivity|]. rewrite H, EV. apply dy_scale. }
  assert (Hn53: n < 2 ^ 53).
  { pose proof (bounded_cases _ _ HV) as [_ HC]. assert (Z.pos k < 2 ^ 53) by (unfold normal in HC; change (2 ^ 53) with (2 * 2 ^ 52) in *; lia).
    assert (0 < 2 ^ i) by (apply Z.pow_pos_nonneg; lia). nia. }
  assert (WR : forall r, survives r -> exists cb l, real_write r = Ok (cb, l)).
  { intros r (enc & r' & q & E & _). unfold to_vec, encode in E. unfold tober_real in E. cbn [tb_write_content] in E.
    destruct (real_write r) as [[cb l]| | |] eqn:W; [eauto| | |]; cbn [bind wseq] in E; destruct (write_header _) as [[? ?]| | |]; discriminate. }
  assert (WB : survives (RBinary (S754_finite s k ek) 2 e 2) -> exists cb, real_binary_content (S754_finite s k ek) e 2 = Ok cb).
  { intros SV. destruct (WR _ SV) as (cb & l & W). unfold real_write in W. change (2 =? 10)%N with false in W. change (negb (2 =? 2)%N) with false in W. cbv iota in W.
    destruct (real_binary_content (S754_finite s k ek) e 2) as [c| | |]; [eauto|discriminate|discriminate|discriminate]. }
  clear WR. pose proof (epsilon_iff k ek HV) as HEps.
  destruct (f64_gt (S754_finite false k ek) f64_epsilon) eqn:G.
  2:{ split.
      - intros SV. exfalso. destruct (WB SV) as (cb & W). rewrite (small_panics s k ek e HV G) in W. discriminate.
      - intros [H _]. rewrite EK in H. apply HEps in H. discriminate. }
  assert (HG: (2 ^ (-52) < dy n t)%Q) by (rewrite EK; apply HEps; reflexivity).
  destruct (above_epsilon k ek HV G) as (Hk & K1 & K2).
  assert (Hek: ek <= 971) by (apply bounded_cases in HV as [HV _]; exact HV).
  assert (Hlow : -104 < ek \/ ek = -104 /\ 2 ^ 52 < Z.pos k) by (destruct (Z.eq_dec ek (-104)); [right; auto | left; lia]).
  destruct (Qlt_le_dec (dy n t) (2 ^ 64)) as [HS|HS].
  - assert (Hbig : 0 <= ek + i -> n * 2 ^ (ek + i) < 2 ^ 64) by (apply dy_lt_64; assumption).
    assert (Q : i32_min < e + t <= i32_max -> (survives (RBinary (S754_finite s k ek) 2 e 2) <-> lucky n (e + t))).
    { intros HI.
      assert (W: real_binary_content (S754_finite s k ek) e 2 = Ok (first_octet (mk_parts s 0 0 (e + t) (Z.to_N n)) 3 :: [4%N] ++ exponent_bytes (e + t) ++ mantissa_bytes n)).
      { rewrite (written_octets s k ek e 2 1 0 e k ek n i); try assumption.
        - rewrite Z.mod_1_r, Z.div_1_r. fold t. rewrite (four_octets (e + t) HE). reflexivity.
        - left. reflexivity.
        - reflexivity.
        - unfold i32_min, i32_max. lia.
        - rewrite Z.div_1_r. exact HI. }
      destruct (four_read s n (e + t) ltac:(lia) HE) as (Cok & CL & _).
      rewrite <- (four_kept s n (e + t) ltac:(lia) On HE ltac:(unfold i32_min, i32_max in HI; lia)).
      set (cb := first_octet _ _ :: _) in *. rewrite (survives_read _ cb); [|apply written_unfold; exact W | exact CL | exact Cok]. split.
      - intros (r' & q & E & H1 & (q' & H2 & H3)). exists r'. split; [exact E|]. apply HR in H1. exists q'. split; [exact H2|]. rewrite <- H1. exact H3.
      - intros (r & E & H). exists r, (dy (if s then - n else n) (e + t)). split; [exact E|]. split; [apply HR; reflexivity|exact H]. }
    split.
    + intros SV. split; [exact HG|]. split; [exact HS|]. right. apply Q; [|exact SV]. destruct (WB SV) as (cb & W). unfold t. eapply written_in_range; eassumption.
    + intros (_ & _ & [F|LK]); [contradiction|]. apply Q; [|exact LK]. unfold lucky in LK. unfold i32_min, i32_max. change (2 ^ 31) with 2147483648. lia.
  - split; [|intros (_ & H & _); exfalso; apply (Qlt_irrefl (dy n t)); eapply Qlt_le_trans; eassumption].
    intros SV. exfalso.
    assert (Ht: 0 <= t /\ 2 ^ 64 <= n * 2 ^ t).
    { destruct (Z_lt_le_dec t 0) as [L|L].
      - exfalso. apply (Qlt_irrefl (dy n t)). eapply Qlt_le_trans; [|exact HS]. apply dy_lt_64; [assumption | assumption | lia].
      - split; [exact L|]. destruct (Z_lt_le_dec (n * 2 ^ t) (2 ^ 64)) as [M|M]; [|exact M].
        exfalso. apply (Qlt_irrefl (dy n t)). eapply Qlt_le_trans; [|exact HS]. apply dy_lt_64; auto. }
    destruct Ht as [Ht HL].
    assert (He' : i32_min < e <= i32_max) by (destruct (WB SV) as (cb & W); eapply large_in_range; eassumption).
    pose proof (large_octets s k ek e n i Ek I Ht Pn HL On G He') as W.
    destruct (exponent_bytes_spec e) as (l & Ll & Hl & Len & Eok & _).
    assert (Eb: blen (exponent_bytes e) = exponent_octets (Z.abs e)) by (unfold blen; lia).
    set (o := exponent_octets (Z.abs e)) in *.
    assert (FO: first_octet (mk_parts s 0 0 e (2 ^ 64 - 1)) (o - 1) = (128 + (if s then 64 else 0) + (o - 1))%N)
      by (unfold first_octet; cbn [bp_negative bp_base_code bp_factor]; lia).
    destruct (N.eqb_spec o 4) as [O4|O4].
    + rewrite O4 in W. cbn [app] in W. set (cb := first_octet _ _ :: _) in W.
      assert (Cok: bytes_ok cb).
      { unfold cb. constructor; [rewrite O4 in FO; rewrite FO; destruct s; cbn; lia|]. constructor; [reflexivity|].
        apply bytes_ok_app. split; [exact Eok | repeat constructor]. }
      rewrite (survives_read _ cb) in SV; [|apply written_unfold; exact W | unfold cb; rewrite !blen_cons, blen_app, Eb, O4; reflexivity | exact Cok].
      destruct SV as (r' & q & E & _). unfold read_content, cb, decode_real in E. rewrite O4 in FO. rewrite FO in E.
      replace ((128 + (if s then 64 else 0) + (4 - 1)) / 128 mod 2 =? 1)%N with true in E by (destruct s; reflexivity).
      unfold decode_binary in E. replace ((128 + (if s then 64 else 0) + (4 - 1)) mod 4 + 1)%N with 4%N in E by (destruct s; reflexivity).
      rewrite blen_cons, blen_app, Eb, O4 in E. change (blen ones) with 8%N in E. change (1 + (4 + 8) <=? 4)%N with false in E. cbv iota in E.
      destruct (_ =? 3)%N in E; [discriminate|]. apply bind_ok in E as (e' & _ & E).
      rewrite skipn_cons_4 in E by (unfold blen in Eb; lia). discriminate.
    + cbn [app] in W.
      assert (IP: in_parts (mk_parts s 0 0 (twos (exponent_bytes e)) (2 ^ 64 - 1)) (exponent_bytes e) ones).
      { unfold in_parts. cbn [bp_base_code bp_factor bp_exponent bp_number]. repeat split; try discriminate; try assumption; try (repeat constructor).
        intro X. rewrite X in Len. cbn in Len. lia. }
      set (cb := first_octet _ _ :: _) in W.
      assert (SF: short_form (mk_parts s 0 0 (twos (exponent_bytes e)) (2 ^ 64 - 1)) (exponent_bytes e) ones cb).
      { split; [exact IP|]. exists (o - 1)%N. split; [lia|]. split; [lia | reflexivity]. }
      assert (Cok: bytes_ok cb).
      { unfold cb. constructor; [rewrite FO; destruct s; cbn; lia|]. apply bytes_ok_app. split; [exact Eok | repeat constructor]. }
      rewrite (survives_read _ cb) in SV; [|apply written_unfold; exact W | unfold cb; rewrite !blen_cons, blen_app; change (blen ones) with 8%N; lia | exact Cok].
      destruct SV as (r' & q & E & H1 & H2). apply HR in H1. rewrite (short_read _ _ _ _ SF) in E. cbn [bp_negative bp_base_code bp_factor bp_exponent] in E.
      unfold read_as in E. change (8 <? blen ones)%N with false in E. cbv iota zeta in E. change (wrap_i64 (val ones)) with (-1) in E.
      change (-1 =? - 2 ^ 63) with false in E. rewrite andb_false_r in E. apply ok_inj in E; subst r'.
      set (x := twos (exponent_bytes e) * log_base 0) in *.
      assert (V: f64_value (scaled (if s then - -1 else -1) 0) = Some (inject_Z (if s then 4503599627370496 else -4503599627370496) * 2 ^ (-52))%Q) by (destruct s; vm_compute; reflexivity).
      apply (holds_binary _ _ _ _ _ V) in H2. rewrite H1 in H2.
      change (dy (if s then 4503599627370496 else -4503599627370496) (-52) * 2 ^ x == dy (if s then - n else n) (e + t))%Q in H2.
      rewrite dy_scale in H2.
      assert (S1: forall z y, (0 < dy z y)%Q <-> 0 < z).
      { intros z y. rewrite <- (dy_lt 0 z y). setoid_replace (dy 0 y) with 0%Q by (unfold dy; ring). reflexivity. }
      destruct s.
      * assert (0 < dy 4503599627370496 (-52 + x))%Q as P by (apply S1; lia). rewrite H2 in P. apply S1 in P. lia.
      * assert (0 < dy n (e + t))%Q as P by (apply S1; lia). rewrite <- H2 in P. apply S1 in P. lia.
Qed.
Print Assumptions C40_base2_all.

Theorem C40_binary_all (m : f64) (e : Z) (v : Q) (n t : Z) :
  valid_binary 53 1024 m = true -> f64_value m = Some v -> Z.odd n = true -> 0 < n ->
  (Qabs v == inject_Z n * 2 ^ t)%Q -> - 2 ^ 31 <= e < 2 ^ 31 ->
  (survives (real_binary m 2 e) <-> (2 ^ (-52) < Qabs v)%Q /\ (Qabs v < 2 ^ 64)%Q /\ (exponent_fits (e + t) \/ lucky n (e + t))).
Proof. exact (C40_base2_all m e v n t). Qed.
Print Assumptions C40_binary_all.

(** 1 with the exponent 2^24 does not come back, 11 (2^56 - 1) / 127 with the exponent 67372043 does. *)
Example C40_base2_all_case :
  valid_binary 53 1024 (f64_of_Z 6241208932418955) = true
  /\ (exists v, f64_value (f64_of_Z 6241208932418955) = Some v /\ (Qabs v == inject_Z 6241208932418955 * 2 ^ 0)%Q /\ (2 ^ (-52) < Qabs v)%Q /\ (Qabs v < 2 ^ 64)%Q)
  /\ lucky 6241208932418955 (67372043 + 0) /\ ~ lucky 1 (2 ^ 24 + 0) /\ ~ exponent_fits (2 ^ 24 + 0)
  /\ to_vec (tober_real (RBinary (f64_of_Z 6241208932418955) 2 67372043 2)) = Ok [9; 13; 131; 4; 4; 4; 4; 11; 22; 44; 88; 177; 98; 197; 139]%N
  /\ parse_der real_codec [9; 13; 131; 4; 4; 4; 4; 11; 22; 44; 88; 177; 98; 197; 139]%N = Ok ([], RBinary (S754_finite false 6241208932418955 7) 2 67372036 2).
Proof.
  split; [vm_compute; reflexivity|]. split; [eexists; split; [reflexivity|]; vm_compute; auto|]. split; [left; split; reflexivity|].
  split; [unfold lucky; lia|]. split; [unfold exponent_fits; lia|]. split; vm_compute; reflexivity.
Qed.

(** ** C74: every binary object that is read *)

(** Contents octets as the reader takes them apart: one to four octets of exponent, told by the last two bits of the first octet. *)
Definition taken_apart (p : binary_parts) (eo mo cb : bytes) : Prop :=
  in_parts p eo mo /\ exists code, (code <= 3)%N /\ blen eo = (code + 1)%N /\ cb = first_octet p code :: eo ++ mo.

Lemma read_apart f c r : bytes_ok (f :: c) -> (128 <= f)%N -> read_content (f :: c) = Ok r ->
  exists p eo mo, taken_apart p eo mo (f :: c) /\ i32_min <= bp_exponent p * log_base (bp_base_code p) <= i32_max.
Proof.
  intros Hok Hf R. apply bytes_ok_cons in Hok as [Hb Hc]. unfold read_content, decode_real in R.
  replace ((f / 128) mod 2 =? 1)%N with true in R by (symmetry; apply N.eqb_eq; lia). unfold decode_binary in R. cbv zeta in R.
  destruct (N.leb_spec (blen c) (f mod 4 + 1)) as [L|L]; [discriminate|].
  set (n := N.to_nat (f mod 4 + 1)) in *. set (eo := firstn n c) in *. set (mo := skipn n c) in *.
  assert (EC : c = eo ++ mo) by (unfold eo, mo; rewrite firstn_skipn; reflexivity).
  assert (Le : blen eo = (f mod 4 + 1)%N) by (unfold eo, blen in *; rewrite firstn_length; lia).
  assert (Lm : mo <> []) by (intros X; rewrite EC, X, app_nil_r in L; lia).
  rewrite EC in Hc. apply bytes_ok_app in Hc as [He Hm].
  destruct (N.eqb_spec ((f / 16) mod 4) 3) as [B3|B3]; [discriminate|].
  set (p := mk_parts ((f / 64) mod 2 =? 1)%N ((f / 16) mod 4) ((f / 4) mod 4) (twos eo) (value_be 256 mo)).
  apply bind_ok in R as (e & E & _). rewrite read_exponent_twos in E by (try assumption; unfold blen in Le; lia). apply as_i32_inv in E as [_ E].
  exists p, eo, mo. split; [|exact E]. split.
  - unfold in_parts, p. cbn [bp_base_code bp_factor bp_exponent bp_number]. split; [lia|]. split; [lia|]. split; [exact He|]. split; [exact Hm|].
    split; [intros X; rewrite X in Le; change (blen []) with 0%N in Le; lia|]. split; [exact Lm|]. split; reflexivity.
  - exists (f mod 4)%N. split; [lia|]. split; [exact Le|]. rewrite EC at 1. f_equal. unfold first_octet, p. cbn [bp_negative bp_base_code bp_factor].
    destruct (N.eqb_spec ((f / 64) mod 2) 1); lia.
Qed.

Lemma change_base_min b m : b <> 2%N -> b = 8%N \/ b = 16%N -> change_base b m i32_min = Panic.
Proof. intros _ [-> | ->]; reflexivity. Qed.

Theorem C74_every_binary (i rem rem' c : bytes) (f : N) (cl : class) (r : real) :
  bytes_ok i -> starts_with_object cl false 9 (f :: c) i rem -> (128 <= f)%N -> some_read real_codec i rem' r ->
  rem' = rem /\ all_read real_codec i rem r /\
  exists p eo mo m v, taken_apart p eo mo (f :: c) /\ let x := bp_exponent p in
    r = RBinary m 2 (x * log_base (bp_base_code p)) (base_number (bp_base_code p)) /\ f64_value m = Some v
    /\ ((bp_number p < 2 ^ 63)%N ->
        let w := (inject_Z (if bp_negative p then - Z.of_N (bp_number p) else Z.of_N (bp_number p)) * 2 ^ Z.of_N (bp_factor p))%Q in
        (Qabs (v - w) * 2 ^ 53 <= Qabs w)%Q)
    /\ ((v == 0)%Q -> ~ survives r)
    /\ forall n t, Z.odd n = true -> 0 < n -> (Qabs v == inject_Z n * 2 ^ t)%Q ->
       (survives r <-> (Qabs v < 2 ^ 64)%Q /\ if (bp_base_code p =? 0)%N then exponent_fits (x + t) \/ lucky n (x + t) else x = 0).
Proof.
  intros Hi HS Hf128 SR. destruct (real_some_read _ _ _ _ _ _ Hi HS SR) as (-> & RC). split; [reflexivity|].
  split; [exact (real_all_read _ _ _ _ _ Hi HS RC)|].
  assert (Cok : bytes_ok (f :: c)) by (destruct HS as (tt & idb & lenb & _ & _ & Ei); rewrite Ei in Hi; apply bytes_ok_app in Hi as [_ Hi]; apply bytes_ok_app in Hi as [_ Hi]; apply bytes_ok_app in Hi as [Hi _]; exact Hi).
  destruct (read_apart f c r Cok Hf128 RC) as (p & eo & mo & TA & HI). exists p, eo, mo. pose proof TA as (IP & code & Hcode & Le & EC).
  rewrite EC in RC. unfold read_content in RC. rewrite (decode_parts _ _ _ _ IP Hcode Le HI) in RC. destruct IP as (Hb & Hf & Eok & Mok & _ & _ & Et & Mv).
  unfold read_as in RC. destruct (N.ltb_spec 8 (blen mo)) as [L|Lm]; [discriminate|]. cbv zeta in RC. set (x := bp_exponent p) in *.
  set (w := wrap_i64 (val mo)) in *.
  assert (Hw : - 2 ^ 63 <= w < 2 ^ 63).
  { unfold w, wrap_i64. change (2 ^ 63) with 9223372036854775808. change (2 ^ 64) with 18446744073709551616. lia. }
  destruct (bp_negative p && (w =? - 2 ^ 63)) eqn:Ew; [discriminate|]. apply ok_inj in RC; subst r.
  set (z := if bp_negative p then - w else w) in *.
  assert (Hz : Z.abs z < 2 ^ 64) by (unfold z; change (2 ^ 64) with (2 * 2 ^ 63); destruct (bp_negative p); lia).
  destruct (scaled_near z (bp_factor p) Hf Hz) as (v & Ev & Nv).
  exists (scaled z (bp_factor p)), v. split; [exact TA|]. cbv zeta. split; [reflexivity|]. split; [exact Ev|].
  assert (Hc : 1 <= log_base (bp_base_code p) <= 4) by (unfold log_base; destruct (_ =? 0)%N; [|destruct (_ =? 1)%N]; lia).
  assert (HR : base_row (log_base (bp_base_code p)) (base_number (bp_base_code p)) (bp_base_code p)).
  { assert (D : bp_base_code p = 0%N \/ bp_base_code p = 1%N \/ bp_base_code p = 2%N) by lia.
    unfold base_row. destruct D as [-> | [-> | ->]]; cbn; tauto. }
  assert (Min : forall m, bp_base_code p <> 0%N -> x * log_base (bp_base_code p) = i32_min -> real_binary_content m i32_min (base_number (bp_base_code p)) = Panic).
  { intros m N0 _. unfold real_binary_content, drop_floating_point. rewrite change_base_min; [reflexivity| |].
    - assert (D : bp_base_code p = 1%N \/ bp_base_code p = 2%N) by lia. destruct D as [-> | ->]; discriminate.
    - assert (D : bp_base_code p = 1%N \/ bp_base_code p = 2%N) by lia. destruct D as [-> | ->]; [left|right]; reflexivity. }
  split; [|split].
  - intros HN. assert (E : w = Z.of_N (bp_number p)).
    { unfold w. rewrite <- Mv. unfold val in *. apply wrap_i64_small. change (2 ^ 63)%N with 9223372036854775808%N in HN. lia. }
    unfold z in Nv. rewrite E in Nv. exact Nv.
  - intros V0. apply unwritten. intros cb.
    destruct (Z.eq_dec z 0) as [Z0|Z0].
    + rewrite Z0, (scaled_zero _ Hf). destruct (N.eq_dec (bp_base_code p) 0) as [B0|B0].
      * rewrite B0. change (base_number 0) with 2%N. rewrite (tiny_content (S754_zero false) _ 2 (S754_zero false) (x * log_base 0)); [discriminate|reflexivity|left; reflexivity].
      * destruct (Z.eq_dec (x * log_base (bp_base_code p)) i32_min) as [M|M]; [pose proof (Min (S754_zero false) B0 M) as Pn; rewrite M, Pn; discriminate|].
        rewrite (zero_panics _ _ _ _ HR); [discriminate|lia].
    + exfalso. destruct (scaled_form z (bp_factor p) Hf Z0 Hz) as (k & ek & Es & _). rewrite Es in Ev. injection Ev as <-.
      assert (A : (dy (if z <? 0 then Z.neg k else Z.pos k) ek == dy 0 ek)%Q) by (unfold dy; rewrite V0; ring).
      apply dy_inj in A. destruct (z <? 0); lia.
  - intros n t On Pn Vn.
    assert (Z0 : z <> 0).
    { intros Z0. rewrite Z0, (scaled_zero _ Hf) in Ev. injection Ev as <-. change (Qabs 0) with 0%Q in Vn.
      assert (A : (dy n t == dy 0 t)%Q) by (unfold dy; rewrite <- Vn; ring). apply dy_inj in A. lia. }
    destruct (scaled_form z (bp_factor p) Hf Z0 Hz) as (k & ek & Es & Nk & Hek). pose proof Ev as Ev'. rewrite Es in Ev'. injection Ev' as Ev'.
    assert (VK : (Qabs v == dy (Z.pos k) ek)%Q).
    { rewrite <- Ev'. change (Qabs (dy (if z <? 0 then Z.neg k else Z.pos k) ek) == dy (Z.pos k) ek)%Q. rewrite abs_dy. destruct (z <? 0); reflexivity. }
    assert (Hv : valid_binary 53 1024 (scaled z (bp_factor p)) = true) by (rewrite Es; cbn [valid_binary]; apply bounded_normal; [exact Nk | lia]).
    assert (V1 : (dy 1 0 <= Qabs v)%Q).
    { rewrite VK. assert (E1 : (dy 1 0 == dy (2 ^ 52) (-52))%Q) by reflexivity. rewrite E1.
      replace ek with (-52 + (ek - -52)) by lia. rewrite <- (dy_shift (Z.pos k) (-52)) by lia. apply dy_le.
      assert (0 < 2 ^ (ek - -52)) by (apply Z.pow_pos_nonneg; lia). unfold normal in Nk. nia. }
    assert (V2 : (2 ^ (-52) < Qabs v)%Q) by (eapply Qlt_le_trans; [|exact V1]; vm_compute; reflexivity).
    destruct (N.eqb_spec (bp_base_code p) 0) as [B0|B0].
    + rewrite B0 in *. change (log_base 0) with 1 in *. change (base_number 0) with 2%N. rewrite Z.mul_1_r in *.
      rewrite (C40_base2_all _ x v n t Hv Ev On Pn Vn) by (unfold i32_min, i32_max in HI; lia). tauto.
    + assert (HB' : (log_base (bp_base_code p), base_number (bp_base_code p)) = (3, 8%N) \/ (log_base (bp_base_code p), base_number (bp_base_code p)) = (4, 16%N)).
      { assert (D : bp_base_code p = 1%N \/ bp_base_code p = 2%N) by lia. destruct D as [-> | ->]; [left | right]; reflexivity. }
      assert (Hc3 : 3 <= log_base (bp_base_code p)) by (destruct HB' as [X|X]; injection X as -> _; lia).
      destruct (Z.eq_dec (x * log_base (bp_base_code p)) i32_min) as [M|M].
      * split; [|intros (_ & X0); rewrite X0 in M; discriminate]. intros SV. exfalso. revert SV. apply unwritten. intros cb. pose proof (Min (scaled z (bp_factor p)) B0 M) as Pc. rewrite M, Pc. discriminate.
      * rewrite (C40_base8_16 _ (x * log_base (bp_base_code p)) v n t _ _ HB' Hv Ev On Pn Vn) by (unfold i32_min, i32_max in HI, M; lia).
        rewrite Z.quot_mul by lia. split.
        -- intros (H & _ & H3). assert (X0 : x = 0) by lia. rewrite X0 in H3. change (2 ^ 0)%Q with 1%Q in H3. rewrite Qmult_1_r in H3. split; [exact H3 | exact X0].
        -- intros (H & X0). rewrite X0. split; [lia|]. change (2 ^ 0)%Q with 1%Q. rewrite Qmult_1_r. split; [exact V2 | exact H].
Qed.
Print Assumptions C74_every_binary.

(** 3 times 2^5 with four octets of exponent comes back shorter. 1 times 2^(2^24) is written with the octet of the length that the reader does not expect. *)
Example C74_every_binary_case :
  starts_with_object Universal false 9 [131; 0; 0; 0; 5; 3]%N [9; 6; 131; 0; 0; 0; 5; 3]%N []
  /\ taken_apart (mk_parts false 0 0 5 3) [0; 0; 0; 5]%N [3]%N [131; 0; 0; 0; 5; 3]%N /\ exponent_fits (5 + 0)
  /\ parse_der real_codec [9; 6; 131; 0; 0; 0; 5; 3]%N = Ok ([], RBinary (f64_of_Z 3) 2 5 2)
  /\ to_vec (tober_real (RBinary (f64_of_Z 3) 2 5 2)) = Ok [9; 3; 128; 5; 3]%N
  /\ parse_der real_codec [9; 6; 131; 1; 0; 0; 0; 1]%N = Ok ([], RBinary (f64_of_Z 1) 2 (2 ^ 24) 2)
  /\ to_vec (tober_real (RBinary (f64_of_Z 1) 2 (2 ^ 24) 2)) = Ok [9; 7; 131; 4; 1; 0; 0; 0; 1]%N
  /\ parse_der real_codec [9; 7; 131; 4; 1; 0; 0; 0; 1]%N = Ok ([], RBinary (f64_of_Z 1) 2 (2 ^ 26 + 2 ^ 16) 2).
Proof.
  split; [|split; [|split]].
  - exists 9%N, [9%N], [6%N]. split; [|split; reflexivity]. split; [split; [|split; [apply (lo_short 6); reflexivity|discriminate]]|].
    + apply (id_low Universal false 9); reflexivity.
    + split; [vm_compute; discriminate|intros n E; injection E as <-; reflexivity].
  - split; [|exists 3%N; split; [lia|]; split; reflexivity]. unfold in_parts. cbn [bp_base_code bp_factor bp_exponent bp_number].
    repeat split; try lia; try discriminate; repeat constructor.
  - unfold exponent_fits; lia.
  - split; [vm_compute; reflexivity|]. split; [vm_compute; reflexivity|]. split; [vm_compute; reflexivity|]. split; vm_compute; reflexivity.
Qed.
