(** C103, C104: writing to a target which may fail, and what a refused value leaves in its target. *)
From Coq Require Import Lia SpecFloat.
From Verif Require Import Base MHeader MEncode MBer MInt MSeg MOid MText MTime MReal MF32 MCont MRef MDerive MIo SIo SHeader PEncode PIo.

(** ** C103 *)

(** The result is that of the writers of MEncode, unless the target fails.  The target has received the encoding, or a beginning of it
    when it fails. *)
Theorem C103_targets {S : Type} (t : target S) (seen : S -> bytes) (s : S) (v : value) :
  honest t seen ->
  match run t s (a_encode v) with
  | (s', Done r) => r = (let* (_, n) := encode (as_tober v) in Ok n)
                    /\ forall b n, encode (as_tober v) = Ok (b, n) -> seen s' = seen s ++ b
  | (s', Failed) => forall b n, encode (as_tober v) = Ok (b, n) -> exists p q, b = p ++ q /\ seen s' = seen s ++ p
  end.
Proof.
  intros H. destruct (run t s (a_encode v)) as [s' [r|]] eqn:R.
  - destruct (run_done t seen H _ _ _ _ R) as [-> E]. rewrite <- octets_encode, octets_result. split; [reflexivity|].
    intros b n O. apply octets_ok in O as [_ <-]. exact E.
  - intros b n O. rewrite <- octets_encode in O. apply octets_ok in O as [_ <-].
    destruct (run_any t seen H s (a_encode v)) as (p & q & E & F). rewrite R in F. exists p, q. split; assumption.
Qed.
Print Assumptions C103_targets.

(** The same for the tagged forms. *)
Theorem C103_tagged {S : Type} (t : target S) (seen : S -> bytes) (s s' : S) (c : class) (tag n : N) (v : value) :
  honest t seen ->
  (run t s (a_encode_tagged_explicit c tag v) = (s', Done (Ok n)) ->
   exists b, encode_tagged_explicit c tag (as_tober v) = Ok (b, n) /\ seen s' = seen s ++ b)
  /\ (run t s (a_encode_tagged_implicit c tag v) = (s', Done (Ok n)) ->
      exists b, encode_tagged_implicit c tag (as_tober v) = Ok (b, n) /\ seen s' = seen s ++ b).
Proof.
  intros H. split; intros R; destruct (run_done t seen H _ _ _ _ R) as [O E]; eexists; (split; [|exact E]).
  - rewrite <- octets_explicit. unfold octets_of. rewrite <- O. reflexivity.
  - rewrite <- octets_implicit. unfold octets_of. rewrite <- O. reflexivity.
Qed.
Print Assumptions C103_tagged.

(** [Vec<u8>] and [&mut [u8]] are such targets. *)
Theorem C103_honest : honest vec_target (fun s => s) /\ honest slice_target (@fst bytes N).
Proof.
  split; intros s b.
  - exists b, []. rewrite app_nil_r. repeat split.
  - unfold slice_target. destruct (blen b <=? snd s); cbn [fst snd].
    + exists b, []. rewrite app_nil_r. repeat split.
    + exists (firstn (N.to_nat (snd s)) b), (skipn (N.to_nat (snd s)) b). rewrite firstn_skipn. repeat split. discriminate.
Qed.
Print Assumptions C103_honest.

(** [to_ber_vec], [to_der_vec]: a vector never fails. *)
Theorem C103_vec (v : value) : a_to_vec v = to_vec (as_tober v).
Proof.
  unfold a_to_vec, to_vec. rewrite <- octets_encode.
  assert (V: forall bs s, write_slices vec_target s bs = (s ++ concat bs, true)).
  { induction bs as [|b bs IH]; intros s; cbn; [rewrite app_nil_r; reflexivity|]. rewrite IH, <- app_assoc. reflexivity. }
  unfold run. rewrite V. unfold octets_of. destruct (snd (a_encode v)); reflexivity.
Qed.
Print Assumptions C103_vec.

(** A slice with room for [k] octets: writing succeeds exactly when the encoding fits; otherwise the first [k] octets are there. *)
Theorem C103_slice (v : value) (b pre : bytes) (n k : N) :
  encode (as_tober v) = Ok (b, n) ->
  run slice_target (pre, k) (a_encode v)
  = if blen b <=? k then ((pre ++ b, k - blen b), Done (Ok n)) else ((pre ++ firstn (N.to_nat k) b, 0), Failed).
Proof.
  intros O. rewrite <- octets_encode in O. apply octets_ok in O as [O <-]. unfold run. rewrite slice_slices, O.
  destruct (blen (concat (fst (a_encode v))) <=? k); reflexivity.
Qed.
Print Assumptions C103_slice.

(** [io::sink()] gives the count alone; so REAL finds its content length, which is that of the content it writes. *)
Theorem C103_sink (v : value) (r : real) :
  run sink_target tt (a_encode v) = (tt, Done (let* (_, n) := encode (as_tober v) in Ok n))
  /\ forall b n, octets_of (v_content (v_real r)) = Ok (b, n) -> v_content_len (v_real r) = Definite (blen b) /\ n = blen b.
Proof.
  split; [rewrite run_sink, <- octets_encode, octets_result; reflexivity|].
  intros b n. cbn [v_content v_real v_content_len]. rewrite octets_real, as_real_len. unfold real_content_len. intros O. rewrite O.
  unfold real_write in O. match type of O with (let* c := ?x in _) = _ => destruct x; cbn [bind] in O; [|discriminate O..] end.
  injection O as <- <-. split; reflexivity.
Qed.
Print Assumptions C103_sink.

(** The values of all types, forgetting where one call ends and the next begins, are those of the other theorems. *)
Theorem C103_types :
  (forall v, as_tober (v_boolean v) = tober_boolean v /\ as_tober (v_boolean_der v) = toder_boolean v)
  /\ (forall v, as_tober (v_bool v) = tober_bool v) /\ as_tober v_null = tober_null
  /\ (forall w z, as_tober (v_int w z) = tober_int w z /\ as_tober (v_uint w z) = tober_uint w z)
  /\ (forall z, as_tober (v_enum z) = tober_enum z) /\ (forall d, as_tober (v_denum d) = denum_tober d)
  /\ (forall d, as_tober (v_integer d) = tober_integer d /\ as_tober (v_octet d) = tober_octet d)
  /\ (forall k s, as_tober (v_string k s) = tober_string k s) /\ (forall s, as_tober (v_str s) = tober_str s)
  /\ (forall s, as_tober (v_bmp s) = tober_bmp s) /\ (forall s, as_tober (v_universal s) = tober_universal s)
  /\ (forall o, as_tober (v_oid o) = tober_oid o) /\ (forall b, as_tober (v_bitstring b) = tober_bitstring b)
  /\ (forall t, as_tober (v_utc t) = tober_utc t) /\ (forall t, as_tober (v_gen t) = tober_gen t)
  /\ (forall r, as_tober (v_real r) = tober_real r) /\ (forall x, as_tober (v_f64 x) = tober_f64 x)
  /\ (forall x, as_tober (v_f32 x) = tober_f32 x)
  /\ (forall a, as_tober (v_any a) = tober_any a) /\ (forall t d, as_tober (v_raw t d) = raw_tober t d)
  /\ (forall h, as_tober (v_header h) = tober_header h).
Proof.
  repeat match goal with |- _ /\ _ => split end; intros; try split; try (apply as_prim);
    try (unfold as_tober; cbn; rewrite ?app_nil_r; reflexivity).
  - unfold as_tober, v_int. cbn [v_encoder v_class v_constructed v_tag v_content_len v_content]. rewrite octets_integer_data. reflexivity.
  - unfold as_tober, v_uint. cbn [v_encoder v_class v_constructed v_tag v_content_len v_content]. rewrite octets_integer_data. reflexivity.
  - unfold as_tober, v_enum. cbn [v_encoder v_class v_constructed v_tag v_content_len v_content]. rewrite octets_integer_data. reflexivity.
  - unfold as_tober, v_denum, v_enum. cbn [v_encoder v_class v_constructed v_tag v_content_len v_content]. rewrite octets_integer_data. reflexivity.
  - apply as_universal.
  - apply as_real.
  - apply as_f64.
  - apply as_f64.
Qed.
Print Assumptions C103_types.

(** The same for what holds other values. *)
Theorem C103_containers :
  (forall t vs, as_tober (v_items t vs) = items_tober t (map as_tober vs))
  /\ (forall vs, as_tober (v_indefinite vs) = indefinite_vec_tober (map as_tober vs))
  /\ (forall c t i v, as_tober (v_explicit c t i v) = explicit_tober c t i (as_tober v))
  /\ (forall c k t v, as_tober (v_implicit c k t v) = implicit_tober c k t (as_tober v))
  /\ (forall h v, as_tober (v_tp_explicit h v) = tp_explicit_tober h (as_tober v)
                  /\ as_tober (v_tp_implicit h v) = tp_implicit_tober h (as_tober v))
  /\ (forall v, as_tober (v_alias v) = alias_tober (as_tober v))
  /\ (forall A k (W : writer A) t x v,
        as_tober (v_variant k (variant_class k W x) (variant_constructed k W x) (variant_tag k t W x) v) = variant_tober k t W x (as_tober v))
  /\ (forall t ps, as_tober (v_struct t ps) = struct_tober t (map as_part ps))
  /\ (forall v, as_part (a_plain_part v) = plain_part (as_tober v))
  /\ (forall c t v, as_part (a_explicit_part c t v) = explicit_part c t (as_tober v))
  /\ (forall c t v, as_part (a_implicit_part c t v) = implicit_part c t (as_tober v))
  /\ (forall o, as_part (a_option_part o) = option_part (option_map as_tober o)).
Proof.
  repeat match goal with |- _ /\ _ => split end; intros; try reflexivity.
  - apply as_items.
  - apply as_indefinite.
  - apply as_explicit.
  - split; [apply as_tp_explicit|reflexivity].
  - unfold as_tober at 1, v_variant, variant_tober. cbn [v_encoder v_class v_constructed v_tag v_content_len v_content].
    destruct k as [[]|]; rewrite ?octets_encode; reflexivity.
  - apply as_struct.
  - apply as_plain_part.
  - apply as_explicit_part.
  - apply as_implicit_part.
  - apply as_option_part.
Qed.
Print Assumptions C103_containers.

(** A sequence of 300 and an octet string, to a vector and to slices of 13, 11, 5 and 0 octets. *)
Example C103_case :
  let v := v_items TagSequence [v_int 4 300; v_octet [1; 2; 3]] in
  let b := [48; 9; 2; 2; 1; 44; 4; 3; 1; 2; 3] in
  a_to_vec v = Ok b
  /\ run slice_target ([], 13) (a_encode v) = ((b, 2), Done (Ok 11))
  /\ run slice_target ([7], 11) (a_encode v) = ((7 :: b, 0), Done (Ok 11))
  /\ run slice_target ([], 5) (a_encode v) = (([48; 9; 2; 2; 1], 0), Failed)
  /\ run slice_target ([], 0) (a_encode v) = (([], 0), Failed)
  /\ fst (a_encode (v_octet (repeat 5 200))) = [[4]; [129]; [200]; repeat 5 200].
Proof. repeat split; vm_compute; reflexivity. Qed.

(** ** C104 *)

(** Expected: a value which cannot be encoded is refused before anything is written. *)
Definition untouched (v : value) : Prop :=
  forall s s' e, run vec_target s (a_encode v) = (s', Done (Err e)) -> s' = s.
Theorem C104_refuted : exists v, ~ untouched v.
Proof.
  exists (v_real (RBinary (f64_of_Z 5) 8 1 2)). intros H.
  assert (R: run vec_target [] (a_encode (v_real (RBinary (f64_of_Z 5) 8 1 2))) = ([9; 0], Done (Err EInvalidValue))) by (vm_compute; reflexivity).
  specialize (H _ _ _ R). discriminate H.
Qed.
Print Assumptions C104_refuted.

(** What is proved: only the content of a value can be refused, with its own error, and what is left is the header and what the content
    had written before. *)
Theorem C104_left_partial {S : Type} (t : target S) (seen : S -> bytes) (s s' : S) (v : value) (e : error) :
  honest t seen ->
  (forall tag, v_encoder v = EncPrimitive tag -> tag < 2 ^ 32) -> v_tag v < 2 ^ 32 ->
  (forall n, v_content_len v = Definite n -> n < 2 ^ 64) ->
  run t s (a_encode v) = (s', Done (Err e)) ->
  exists h, write_header (as_tober v) = Ok (h, blen h) /\ snd (v_content v) = Err e
            /\ seen s' = seen s ++ h ++ concat (fst (v_content v)).
Proof.
  intros H P T L R. destruct (run_done t seen H _ _ _ _ R) as [E F].
  assert (W: exists h, write_header (as_tober v) = Ok (h, blen h)).
  { unfold write_header, as_tober. cbn [tb_encoder tb_class tb_constructed tb_tag tb_content_len].
    assert (I: exists i, write_tag_info (v_encoder v) (v_class v) (v_constructed v) (v_tag v) = Ok (i, blen i)).
    { destruct (v_encoder v) as [tag| | |] eqn:V; cbn [write_tag_info].
      - destruct (write_tag_generic_ok Universal false tag) as (i & -> & _); [apply (P tag); reflexivity|]. exists i. reflexivity.
      - destruct (write_tag_generic_ok (v_class v) true (v_tag v) T) as (i & -> & _). exists i. reflexivity.
      - destruct (write_tag_generic_ok (v_class v) true (v_tag v) T) as (i & -> & _). exists i. reflexivity.
      - destruct (write_tag_generic_ok (v_class v) (v_constructed v) (v_tag v) T) as (i & -> & _). exists i. reflexivity. }
    destruct I as [i ->]. destruct (write_length_ok (v_content_len v) L) as (l & -> & _).
    exists (i ++ l). cbn [wseq bind]. unfold blen. rewrite app_length, Nat2N.inj_add. reflexivity. }
  destruct W as [h W]. exists h. split; [exact W|]. rewrite <- octets_header in W. apply octets_ok in W as [W1 W2].
  unfold a_encode, andthen in E, F. rewrite W1 in E, F. cbn [fst snd] in E, F.
  rewrite concat_app, W2 in F. split; [|exact F]. destruct (snd (v_content v)); cbn in E; congruence.
Qed.
Print Assumptions C104_left_partial.

(** REAL: a base other than 2 and 10 is refused with the header of an empty content written. *)
Theorem C104_real {S : Type} (t : target S) (seen : S -> bytes) (s s' : S) (o : outcome) (m : f64) (base : N) (e : Z) (enc : N) :
  honest t seen -> base <> 2 -> base <> 10 ->
  run t s (a_encode (v_real (RBinary m base e enc))) = (s', o) -> o <> Failed ->
  o = Done (Err EInvalidValue) /\ seen s' = seen s ++ [9; 0].
Proof.
  intros H B2 B10 R D. destruct o as [r|]; [|contradiction].
  assert (A: a_encode (v_real (RBinary m base e enc)) = ([[9]; [0]], Err EInvalidValue)).
  { unfold a_encode, a_write_header, v_real, a_real_content_len. rewrite run_sink.
    unfold a_real_write. destruct (N.eqb_spec base 10); [contradiction|]. destruct (N.eqb_spec base 2); [contradiction|]. reflexivity. }
  rewrite A in R. destruct (run_done t seen H _ _ _ _ R) as [-> F]. split; [reflexivity|]. exact F.
Qed.
Print Assumptions C104_real.

Lemma vec_run s a : run vec_target s a = (s ++ concat (fst a), Done (snd a)).
Proof.
  unfold run. assert (V: forall bs s, write_slices vec_target s bs = (s ++ concat bs, true)).
  { induction bs as [|b bs IH]; intros x; cbn; [rewrite app_nil_r; reflexivity|]. rewrite IH, <- app_assoc. reflexivity. }
  rewrite V. reflexivity.
Qed.

(** SEQUENCE OF and SET OF: the header, the items before the refused one, and what that one leaves by itself. *)
Theorem C104_items (tag hn : N) (before after : list value) (v : value) (h left b s : bytes) (n : N) (e : error) :
  write_header (as_tober (v_items tag (before ++ v :: after))) = Ok (h, hn) ->
  write_items (map as_tober before) = Ok (b, n) ->
  run vec_target [] (a_encode v) = (left, Done (Err e)) ->
  run vec_target s (a_encode (v_items tag (before ++ v :: after))) = (s ++ h ++ b ++ left, Done (Err e)).
Proof.
  intros Hh Hb Hv. rewrite vec_run in Hv. injection Hv as Hl He. cbn [app] in Hl.
  rewrite <- octets_header in Hh. apply octets_ok in Hh as [H1 H2]. rewrite <- octets_items in Hb.
  assert (I: forall n b, octets_of (a_write_items before) = Ok (b, n) ->
             concat (fst (a_write_items (before ++ v :: after))) = b ++ left /\ snd (a_write_items (before ++ v :: after)) = Err e).
  { clear - Hl He. induction before as [|w ws IH]; intros n b O; cbn [app a_write_items].
    - unfold octets_of in O. cbn in O. injection O as <- _. unfold andthen. rewrite He. cbn [fst snd app]. split; [exact Hl|reflexivity].
    - cbn [a_write_items] in O. rewrite octets_andthen in O. destruct (octets_of (a_encode w)) as [[x k]| | |] eqn:W; cbn [wseq bind] in O; try discriminate O.
      destruct (octets_of (a_write_items ws)) as [[y l]| | |]; cbn [wseq bind] in O; try discriminate O. injection O as <- _.
      destruct (IH l y eq_refl) as [E F]. apply octets_ok in W as [W1 W2]. unfold andthen. rewrite W1. cbn [fst snd]. rewrite F, concat_app, E, W2, <- app_assoc.
      split; reflexivity. }
  destruct (I _ _ Hb) as [E F]. rewrite vec_run. unfold a_encode, andthen. rewrite H1. cbn [fst snd]. change (v_content (v_items tag (before ++ v :: after))) with (a_write_items (before ++ v :: after)).
  rewrite F, concat_app, H2, E. reflexivity.
Qed.
Print Assumptions C104_items.

(** SEQUENCE OF REAL, the second with base 8: 30 0C 09 03 80 00 01 09 00 is left. *)
Example C104_case :
  let good := v_real (RBinary (f64_of_Z 1) 2 0 2) in
  let bad := v_real (RBinary (f64_of_Z 5) 8 1 2) in
  let v := v_items TagSequence [good; bad; good] in
  run vec_target [] (a_encode bad) = ([9; 0], Done (Err EInvalidValue))
  /\ run vec_target [7] (a_encode v) = ([7; 48; 12; 9; 3; 128; 0; 1; 9; 0], Done (Err EInvalidValue))
  /\ a_to_vec v = Err EInvalidValue
  /\ write_header (as_tober v) = Ok ([48; 12], 2) /\ write_items (map as_tober [good]) = Ok ([9; 3; 128; 0; 1], 5).
Proof. cbv zeta. repeat split; vm_compute; reflexivity. Qed.
