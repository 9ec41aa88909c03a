(** Arithmetic of bytes: masks, shifts and positional values. *)
From Verif Require Import Base MHeader SHeader.

Lemma byte_forall (P : N -> bool) :
  forallb P (map N.of_nat (seq 0 256)) = true -> forall b, b < 256 -> P b = true.
Proof.
  intros H b Hb. rewrite forallb_forall in H. apply H.
  apply in_map_iff. exists (N.to_nat b). split; [lia|]. apply in_seq. lia.
Qed.

Lemma land_ones_mod x k : N.land x (N.ones k) = x mod 2 ^ k.
Proof. apply N.land_ones. Qed.

Lemma land_7f x : N.land x 0x7f = x mod 128.
Proof. apply (N.land_ones x 7). Qed.

Lemma land_1f x : N.land x 0x1f = x mod 32.
Proof. apply (N.land_ones x 5). Qed.

Lemma land_80 b : b < 256 -> (N.land b 0x80 =? 0) = (b <? 128).
Proof.
  intros Hb. apply Bool.eqb_prop.
  apply (byte_forall (fun b => Bool.eqb (N.land b 0x80 =? 0) (b <? 128))); [|exact Hb].
  vm_compute. reflexivity.
Qed.

Lemma land_20 b : b < 256 -> (N.land b 0x20 =? 0) = ((b / 32) mod 2 =? 0).
Proof.
  intros Hb. apply Bool.eqb_prop.
  apply (byte_forall (fun b => Bool.eqb (N.land b 0x20 =? 0) ((b / 32) mod 2 =? 0))); [|exact Hb].
  vm_compute. reflexivity.
Qed.

Lemma land_disjoint a b k : b < 2 ^ k -> N.land (a * 2 ^ k) b = 0.
Proof.
  intros Hb. apply N.bits_inj. intros n. rewrite N.bits_0, N.land_spec.
  destruct (N.lt_ge_cases n k) as [Hn|Hn].
  - rewrite N.mul_pow2_bits_low by assumption. reflexivity.
  - replace (N.testbit b n) with false; [apply andb_false_r|].
    symmetry. destruct (N.eq_dec b 0) as [->|H0]; [apply N.bits_0|].
    apply N.bits_above_log2. apply N.log2_lt_pow2; [lia|].
    eapply N.lt_le_trans; [exact Hb|]. apply N.pow_le_mono_r; lia.
Qed.

Lemma lor_add a b k : b < 2 ^ k -> N.lor (a * 2 ^ k) b = a * 2 ^ k + b.
Proof.
  intros Hb. pose proof (land_disjoint a b k Hb) as H.
  rewrite <- N.lxor_lor by exact H. symmetry. apply N.add_nocarry_lxor. exact H.
Qed.

Lemma lor_shiftl_add a b k : b < 2 ^ k -> N.lor (N.shiftl a k) b = a * 2 ^ k + b.
Proof. intros Hb. rewrite N.shiftl_mul_pow2. apply lor_add; assumption. Qed.

Lemma value_be_app b xs ys :
  value_be b (xs ++ ys) = value_be b xs * b ^ (N.of_nat (length ys)) + value_be b ys.
Proof.
  unfold value_be.
  assert (G : forall ys acc, fold_left (fun acc d => acc * b + d) ys acc
              = acc * b ^ N.of_nat (length ys) + fold_left (fun acc d => acc * b + d) ys 0).
  { intros zs. induction zs as [|z zs IH]; intros acc; cbn [fold_left length].
    - change (N.of_nat 0) with 0. rewrite N.pow_0_r. lia.
    - rewrite (IH (acc * b + z)), (IH (0 * b + z)).
      rewrite Nat2N.inj_succ, N.pow_succ_r by lia. nia. }
  rewrite fold_left_app. apply G.
Qed.

Lemma value_be_cons b x xs :
  value_be b (x :: xs) = x * b ^ (N.of_nat (length xs)) + value_be b xs.
Proof.
  change (x :: xs) with ([x] ++ xs). rewrite value_be_app.
  unfold value_be at 1. cbn [fold_left]. lia.
Qed.

Lemma value_be_snoc b xs x : value_be b (xs ++ [x]) = value_be b xs * b + x.
Proof.
  unfold value_be. rewrite fold_left_app. reflexivity.
Qed.

Lemma value_be_nil b : value_be b [] = 0.
Proof. reflexivity. Qed.

Lemma value_be_one b x : value_be b [x] = x.
Proof. unfold value_be. cbn [fold_left]. lia. Qed.

Lemma value_be_bound b xs :
  0 < b -> Forall (fun x => x < b) xs -> value_be b xs < b ^ (N.of_nat (length xs)).
Proof.
  intros Hb H. induction H as [|x xs Hx H IH].
  - cbn. lia.
  - rewrite value_be_cons. cbn [length]. rewrite Nat2N.inj_succ, N.pow_succ_r by lia. nia.
Qed.

Lemma value_be_inj b xs ys :
  0 < b -> Forall (fun x => x < b) xs -> Forall (fun x => x < b) ys ->
  length xs = length ys -> value_be b xs = value_be b ys -> xs = ys.
Proof.
  intros Hb Hxs. revert ys.
  induction Hxs as [|x xs Hx Hxs IH]; intros ys Hys Hlen Hv; destruct ys as [|y ys];
    cbn [length] in Hlen; try lia; [reflexivity|].
  inversion Hys as [|? ? Hy Hys']; subst. rewrite !value_be_cons in Hv.
  assert (Hlen' : length xs = length ys) by lia. rewrite Hlen' in Hv.
  pose proof (value_be_bound b ys Hb Hys') as B1.
  pose proof (value_be_bound b xs Hb Hxs) as B2. rewrite Hlen' in B2.
  set (p := b ^ N.of_nat (length ys)) in *.
  assert (x = y) by nia. subst y. f_equal. apply IH; try assumption. lia.
Qed.

Lemma of_be_bytes_value bs : of_be_bytes bs = value_be 256 bs.
Proof. reflexivity. Qed.

Lemma be_bytes_length k n : length (be_bytes k n) = k.
Proof.
  revert n. induction k as [|k IH]; intros n; cbn [be_bytes]; [reflexivity|].
  rewrite app_length, IH. cbn. lia.
Qed.

Lemma be_bytes_ok k n : bytes_ok (be_bytes k n).
Proof.
  revert n. induction k as [|k IH]; intros n; cbn [be_bytes]; [constructor|].
  apply Forall_app. split; [apply IH|]. constructor; [|constructor]. apply N.mod_lt. lia.
Qed.

Lemma be_bytes_value k n : value_be 256 (be_bytes k n) = n mod 256 ^ (N.of_nat k).
Proof.
  revert n. induction k as [|k IH]; intros n; cbn [be_bytes].
  - cbn. rewrite N.mod_1_r. reflexivity.
  - rewrite value_be_snoc, IH, Nat2N.inj_succ, N.pow_succ_r by lia.
    rewrite N.mod_mul_r by (try apply N.pow_nonzero; lia). lia.
Qed.

Lemma be_bytes_value_small k n : n < 256 ^ (N.of_nat k) -> value_be 256 (be_bytes k n) = n.
Proof. intros H. rewrite be_bytes_value. apply N.mod_small. exact H. Qed.

Lemma be_bytes_of_value bs :
  bytes_ok bs -> be_bytes (length bs) (value_be 256 bs) = bs.
Proof.
  intros H. apply (value_be_inj 256); [lia|apply be_bytes_ok|exact H|apply be_bytes_length|].
  apply be_bytes_value_small. apply value_be_bound; [lia|exact H].
Qed.

Lemma blen_cons {A} (x : A) l : blen (x :: l) = 1 + blen l.
Proof. unfold blen. cbn [length]. lia. Qed.
Lemma blen_nil {A} : blen (@nil A) = 0.
Proof. reflexivity. Qed.
Lemma blen_app {A} (x y : list A) : blen (x ++ y) = blen x + blen y.
Proof. unfold blen. rewrite app_length. lia. Qed.
Lemma blen_map {A B} (f : A -> B) l : blen (map f l) = blen l.
Proof. unfold blen. rewrite map_length. reflexivity. Qed.
Lemma blen_one {A} (x : A) : blen [x] = 1.
Proof. reflexivity. Qed.

Lemma take_app n xs ys : blen xs = n -> take n (xs ++ ys) = Ok (ys, xs).
Proof.
  intros <-. unfold take, blen. rewrite app_length.
  destruct (N.leb_spec (N.of_nat (length xs)) (N.of_nat (length xs + length ys))) as [_|H]; [|lia].
  rewrite Nat2N.id, skipn_app, firstn_app, Nat.sub_diag, skipn_all, firstn_all. cbn.
  rewrite app_nil_r. reflexivity.
Qed.

Lemma take_ok n i rem data :
  take n i = Ok (rem, data) <-> i = data ++ rem /\ blen data = n.
Proof.
  split.
  - unfold take. destruct (N.leb_spec n (blen i)) as [H|H]; [|discriminate].
    intros E. injection E as <- <-. split; [symmetry; apply firstn_skipn|].
    unfold blen in *. rewrite firstn_length. lia.
  - intros [-> H]. apply take_app. exact H.
Qed.

Lemma bytes_ok_app xs ys : bytes_ok (xs ++ ys) <-> bytes_ok xs /\ bytes_ok ys.
Proof. apply Forall_app. Qed.

Lemma bytes_ok_cons x xs : bytes_ok (x :: xs) <-> x < 256 /\ bytes_ok xs.
Proof. apply Forall_cons_iff. Qed.
