(** Proofs about writing to a target which may fail. *)
From Coq Require Import Lia SpecFloat.
From Verif Require Import Base MHeader MEncode MBer MInt MSeg MOid MText MTime MReal MF32 MCont MRef MDerive MIo SIo.

Definition octets_of (a : act) : wres := let* n := snd a in Ok (concat (fst a), n).
(** The same value without the borders between calls. *)
Definition as_tober (v : value) : tober :=
  mk_tober (v_encoder v) (v_class v) (v_constructed v) (v_tag v) (v_content_len v) (octets_of (v_content v)).
Definition as_part (p : apart) : part := mk_part (ap_len p) (octets_of (ap_write p)).

Lemma octets_andthen a b : octets_of (andthen a b) = wseq (octets_of a) (octets_of b).
Proof.
  destruct a as [x [n|e|k|]], b as [y [m|e'|k'|]]; unfold octets_of, andthen, wseq; cbn; try reflexivity.
  rewrite concat_app. reflexivity.
Qed.
Lemma octets_put b n : octets_of (put b n) = Ok (b, n).
Proof. unfold octets_of. cbn. rewrite app_nil_r. reflexivity. Qed.

Lemma octets_tag c k t : octets_of (a_write_tag_generic c k t) = write_tag_generic c k t.
Proof.
  unfold a_write_tag_generic, write_tag_generic. destruct (t <? 31); [apply octets_put|].
  rewrite octets_andthen, octets_put.
  destruct (write_tag_loop 7 (N.shiftr t 7) [N.land t 127]); try rewrite octets_put; reflexivity.
Qed.
Lemma octets_length l : octets_of (a_write_length l) = write_length l.
Proof.
  unfold a_write_length, write_length. destruct l as [n|]; [|reflexivity].
  destruct (n <=? 127); [apply octets_put|]. destruct (skip_zeroes (be_bytes 8 n)); try reflexivity.
  rewrite octets_andthen, !octets_put. reflexivity.
Qed.
Lemma octets_tag_info e c k t : octets_of (a_write_tag_info e c k t) = write_tag_info e c k t.
Proof. destruct e; apply octets_tag. Qed.
Lemma octets_header v : octets_of (a_write_header v) = write_header (as_tober v).
Proof. unfold a_write_header, write_header. rewrite octets_andthen, octets_tag_info, octets_length. reflexivity. Qed.
Lemma octets_encode v : octets_of (a_encode v) = encode (as_tober v).
Proof. unfold a_encode, encode. rewrite octets_andthen, octets_header. reflexivity. Qed.
Lemma octets_explicit c t v : octets_of (a_encode_tagged_explicit c t v) = encode_tagged_explicit c t (as_tober v).
Proof. unfold a_encode_tagged_explicit, encode_tagged_explicit. rewrite !octets_andthen, !octets_header. reflexivity. Qed.
Lemma octets_implicit c t v : octets_of (a_encode_tagged_implicit c t v) = encode_tagged_implicit c t (as_tober v).
Proof. unfold a_encode_tagged_implicit, encode_tagged_implicit. rewrite !octets_andthen, !octets_header. reflexivity. Qed.
Lemma octets_items vs : octets_of (a_write_items vs) = write_items (map as_tober vs).
Proof. induction vs as [|v vs IH]; [reflexivity|]. cbn [a_write_items write_items map]. rewrite octets_andthen, octets_encode, IH. reflexivity. Qed.
Lemma octets_parts ps : octets_of (a_parts_write ps) = parts_write (map as_part ps).
Proof. induction ps as [|p ps IH]; [reflexivity|]. cbn [a_parts_write parts_write map]. rewrite octets_andthen, IH. reflexivity. Qed.

(** ** The types *)

Lemma as_prim t d : as_tober (prim t d) = mk_tober (EncPrimitive t) Universal false t (Definite (blen d)) (Ok (d, blen d)).
Proof. unfold as_tober, prim. cbn. rewrite app_nil_r. reflexivity. Qed.
Lemma octets_integer_data d : octets_of (a_integer_data d) = write_integer_data d.
Proof. destruct d; [apply octets_put|..]; reflexivity. Qed.
Lemma as_real_binary m e b : (let* cs := real_binary_slices m e b in Ok (concat cs)) = real_binary_content m e b.
Proof.
  unfold real_binary_slices, real_binary_content.
  destruct (drop_floating_point m b e) as [[[neg k] x]| | |]; try reflexivity. cbn [bind].
  destruct (k =? 0); [reflexivity|].
  destruct (shift_loop _ _ _ _) as [[k' x']| | |]; try reflexivity. cbn [bind].
  destruct (scale_loop 5 k' 0) as [k'' sf].
  destruct (i32_abs x') as [a| | |]; try reflexivity. cbn [bind].
  destruct (exponent_octets a =? 4); cbn [concat app]; rewrite app_nil_r; reflexivity.
Qed.
Lemma octets_real r : octets_of (a_real_write r) = real_write r.
Proof.
  destruct r as [m b e eb| | | |]; try reflexivity.
  unfold a_real_write, real_write. destruct (b =? 10); [apply octets_put|].
  destruct (negb (b =? 2)); [reflexivity|]. rewrite <- as_real_binary.
  destruct (real_binary_slices m e eb); reflexivity.
Qed.
Lemma sink_slices bs : write_slices sink_target tt bs = (tt, true).
Proof. induction bs; [reflexivity|assumption]. Qed.
Lemma run_sink a : run sink_target tt a = (tt, Done (snd a)).
Proof. unfold run. rewrite sink_slices. reflexivity. Qed.
Lemma as_real_len r : a_real_content_len r = real_content_len r.
Proof.
  unfold real_content_len. destruct r as [m b e eb| | | |]; try reflexivity.
  unfold a_real_content_len. rewrite run_sink, <- octets_real. cbn [snd].
  unfold octets_of. destruct (snd (a_real_write (RBinary m b e eb))); reflexivity.
Qed.
Lemma as_real r : as_tober (v_real r) = tober_real r.
Proof. unfold as_tober, v_real, tober_real. cbn [v_encoder v_class v_constructed v_tag v_content_len v_content]. rewrite octets_real, as_real_len. reflexivity. Qed.
Lemma as_f64 x : as_tober (v_f64 x) = tober_f64 x.
Proof. unfold v_f64, tober_f64. destruct (real_new x); [apply as_real|..]; reflexivity. Qed.
Lemma as_total v : total_len (as_tober v) = v_total_len v.
Proof. reflexivity. Qed.
Lemma as_items t vs : as_tober (v_items t vs) = items_tober t (map as_tober vs).
Proof.
  unfold as_tober at 1, v_items, items_tober, length_constructed_items. cbn [v_encoder v_class v_constructed v_tag v_content_len v_content].
  rewrite octets_items, map_map. reflexivity.
Qed.
Lemma as_indefinite vs : as_tober (v_indefinite vs) = indefinite_vec_tober (map as_tober vs).
Proof.
  unfold as_tober at 1, v_indefinite, indefinite_vec_tober. cbn [v_encoder v_class v_constructed v_tag v_content_len v_content].
  rewrite octets_andthen, octets_items. reflexivity.
Qed.
Lemma as_explicit c t i v : as_tober (v_explicit c t i v) = explicit_tober c t i (as_tober v).
Proof. unfold as_tober at 1, v_explicit, explicit_tober. cbn [v_encoder v_class v_constructed v_tag v_content_len v_content]. rewrite octets_encode. reflexivity. Qed.
Lemma as_tp_explicit h v : as_tober (v_tp_explicit h v) = tp_explicit_tober h (as_tober v).
Proof. unfold as_tober at 1, v_tp_explicit, tp_explicit_tober. cbn [v_encoder v_class v_constructed v_tag v_content_len v_content]. rewrite octets_encode. reflexivity. Qed.
Lemma as_universal s : as_tober (v_universal s) = tober_universal s.
Proof. unfold as_tober, v_universal, tober_universal, octets_of, universal_bytes. cbn. rewrite flat_map_concat_map. reflexivity. Qed.
Lemma parts_len_as ps : forall acc, parts_len (map as_part ps) acc = a_parts_len ps acc.
Proof. induction ps as [|p ps IH]; intros acc; [reflexivity|]. cbn. destruct (ap_len p acc); try reflexivity. apply IH. Qed.
Lemma as_struct t ps : as_tober (v_struct t ps) = struct_tober t (map as_part ps).
Proof.
  unfold v_struct, struct_tober. rewrite parts_len_as. destruct (a_parts_len ps (Definite 0)); try reflexivity.
  unfold as_tober. cbn [v_encoder v_class v_constructed v_tag v_content_len v_content]. rewrite octets_parts. reflexivity.
Qed.
Lemma as_plain_part v : as_part (a_plain_part v) = plain_part (as_tober v).
Proof. unfold as_part, a_plain_part, plain_part. cbn [ap_len ap_write]. rewrite octets_encode. reflexivity. Qed.
Lemma as_explicit_part c t v : as_part (a_explicit_part c t v) = explicit_part c t (as_tober v).
Proof. unfold as_part, a_explicit_part, explicit_part. cbn [ap_len ap_write]. rewrite octets_explicit. reflexivity. Qed.
Lemma as_implicit_part c t v : as_part (a_implicit_part c t v) = implicit_part c t (as_tober v).
Proof. unfold as_part, a_implicit_part, implicit_part. cbn [ap_len ap_write]. rewrite octets_implicit. reflexivity. Qed.
Lemma octets_option o : octets_of (a_option_encode o) = option_encode (option_map as_tober o).
Proof. destruct o; [apply octets_encode|reflexivity]. Qed.
Lemma as_option_part o : as_part (a_option_part o) = option_part (option_map as_tober o).
Proof.
  unfold as_part, a_option_part, option_part. cbn [ap_len ap_write]. rewrite octets_option. destruct o; reflexivity.
Qed.

(** ** Targets *)

Section Target.
Context {S : Type} (t : target S) (seen : S -> bytes) (H : honest t seen).

Lemma slices_seen bs : forall s, exists p q,
  concat bs = p ++ q /\ seen (fst (write_slices t s bs)) = seen s ++ p
  /\ (snd (write_slices t s bs) = true -> q = []).
Proof.
  induction bs as [|b bs IH]; intros s; cbn [write_slices concat].
  - exists [], []. cbn [fst]. repeat split. rewrite app_nil_r. reflexivity.
  - destruct (H s b) as (p & q & E & F & G). destruct (t s b) as [s1 [|]] eqn:T; cbn [fst snd] in *.
    + specialize (G eq_refl). subst q. rewrite app_nil_r in E. subst p.
      destruct (IH s1) as (p & q & E & F' & G). exists (b ++ p), q.
      rewrite E, F', F, <- !app_assoc. repeat split; try reflexivity. exact G.
    + exists p, (q ++ concat bs). rewrite E, <- app_assoc, F. repeat split; try reflexivity. discriminate.
Qed.

Lemma run_done s a s' r : run t s a = (s', Done r) -> r = snd a /\ seen s' = seen s ++ concat (fst a).
Proof.
  unfold run. destruct (slices_seen (fst a) s) as (p & q & E & F & G).
  destruct (write_slices t s (fst a)) as [s1 [|]]; cbn [fst snd] in *; intros R; [injection R as <- <-|discriminate R].
  split; [reflexivity|]. specialize (G eq_refl). subst q. rewrite app_nil_r in E. rewrite F, E. reflexivity.
Qed.
Lemma run_any s a : exists p q, concat (fst a) = p ++ q /\ seen (fst (run t s a)) = seen s ++ p.
Proof.
  unfold run. destruct (slices_seen (fst a) s) as (p & q & E & F & G).
  destruct (write_slices t s (fst a)) as [s1 [|]]; cbn [fst snd] in *; exists p, q; split; assumption.
Qed.
End Target.

Lemma slice_slices bs : forall pre k,
  write_slices slice_target (pre, k) bs
  = if blen (concat bs) <=? k then ((pre ++ concat bs, k - blen (concat bs)), true)
    else ((pre ++ firstn (N.to_nat k) (concat bs), 0), false).
Proof.
  induction bs as [|b bs IH]; intros pre k; cbn [write_slices concat].
  - replace (blen [] <=? k) with true by (symmetry; apply N.leb_le; unfold blen; cbn; lia).
    rewrite app_nil_r. unfold blen. cbn. rewrite N.sub_0_r. reflexivity.
  - unfold slice_target at 1. cbn [fst snd]. unfold blen in *. rewrite app_length, Nat2N.inj_add.
    destruct (N.leb_spec (N.of_nat (length b)) k).
    + rewrite IH. destruct (N.leb_spec (N.of_nat (length (concat bs))) (k - N.of_nat (length b)));
        destruct (N.leb_spec (N.of_nat (length b) + N.of_nat (length (concat bs))) k); try lia.
      * rewrite <- app_assoc, N.sub_add_distr. reflexivity.
      * rewrite <- app_assoc, (firstn_app (N.to_nat k)), (firstn_all2 b) by lia.
        replace (N.to_nat k - length b)%nat with (N.to_nat (k - N.of_nat (length b))) by lia. reflexivity.
    + destruct (N.leb_spec (N.of_nat (length b) + N.of_nat (length (concat bs))) k); try lia.
      rewrite firstn_app. replace (N.to_nat k - length b)%nat with O by lia.
      rewrite firstn_O, app_nil_r. reflexivity.
Qed.

Lemma octets_ok a b n : octets_of a = Ok (b, n) -> snd a = Ok n /\ concat (fst a) = b.
Proof. unfold octets_of. destruct (snd a); cbn; intros E; inversion E. split; reflexivity. Qed.
Lemma octets_result a : (let* (_, n) := octets_of a in Ok n) = snd a.
Proof. unfold octets_of. destruct (snd a); reflexivity. Qed.
