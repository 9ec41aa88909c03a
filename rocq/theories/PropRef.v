(** C90: writing through references and of options; C91: the tests on [Real]. *)
From Coq Require Import SpecFloat QArith.
From Verif Require Import Base MHeader MEncode MBer MInt MCont MReal MRef SReal PReal PropReal PropReals.
Local Open Scope N_scope.

(** ** C90 *)

(** A reference is written as the value, whatever method is called. *)
Theorem C90_reference (w : tober) (c : class) (n : N) :
  encode (ref_tober w) = encode w /\ to_vec (ref_tober w) = to_vec w /\ total_len (ref_tober w) = total_len w
  /\ encode_tagged_explicit c n (ref_tober w) = encode_tagged_explicit c n w
  /\ encode_tagged_implicit c n (ref_tober w) = encode_tagged_implicit c n w
  /\ encode (ref_tober (ref_tober w)) = encode w.
Proof. destruct w. repeat split. Qed.
Print Assumptions C90_reference.

(** What an [Option], a reference to it, and an [Option] with a tag are written as: only [ber_encode] of the [Option]
    itself is overridden.  The methods that ask for its tag do not return when it holds a value, and write an
    object when it does not. *)
Theorem C90_option_partial (o : option tober) (c : class) (n : N) : n < 31 ->
  option_encode o = match o with Some w => encode w | None => Ok ([], 0) end
  /\ ref_option_encode o = match o with Some _ => Panic | None => Ok ([0; 0], 2) end
  /\ option_encode_explicit c n o = match o with Some _ => Panic | None => Ok ([64 * class_num c + 32 + n; 2; 0; 0], 4) end
  /\ option_encode_implicit c n o = match o with Some _ => Panic | None => Ok ([64 * class_num c + n; 0], 2) end.
Proof.
  intros H. destruct o as [w|]; [repeat split|].
  assert (I: In n (map N.of_nat (seq 0 31))).
  { apply in_map_iff. exists (N.to_nat n). split; [lia|]. apply in_seq. lia. }
  cbn in I. destruct c; repeat (destruct I as [<-|I]; [repeat split; reflexivity|]); destruct I.
Qed.
Print Assumptions C90_option_partial.

(** A reference to an [Option] is not written as the [Option]: [&None] is written as an end-of-contents, [&Some(5)] not at all. *)
Theorem C90_option_refuted :
  (exists o, ref_option_encode o <> option_encode o /\ option_encode o = Ok ([], 0) /\ ref_option_encode o = Ok ([0; 0], 2))
  /\ (exists o, option_encode o = Ok ([2; 1; 5], 3) /\ ref_option_encode o = Panic).
Proof.
  split; [exists None | exists (Some (tober_integer [5]))]; repeat split; discriminate.
Qed.
Print Assumptions C90_option_refuted.

Example C90_case :
  to_vec (ref_tober (tober_integer [5])) = Ok [2; 1; 5]
  /\ option_encode_explicit ContextSpecific 3 None = Ok ([163; 2; 0; 0], 4).
Proof. repeat split. Qed.

(** ** C91 *)

(** What [Real::new] makes of a float is finite, infinite or neither as the float is. *)
Theorem C91_of_float (x : f64) (r : real) : valid_binary 53 1024 x = true -> real_new x = Ok r ->
  (real_is_finite r = true <-> exists q, f64_value x = Some q)
  /\ (real_is_infinite r = true <-> exists s, x = S754_infinity s).
Proof.
  intros V E. destruct (C73_real_new x V) as (NaN & Inf & Zr & Fin).
  destruct x as [s|s| |s k e].
  - rewrite (Zr 0%Q) in E by reflexivity. injection E as <-. cbn. split; split; intros H; try discriminate; eauto. destruct H; discriminate.
  - rewrite (Inf s eq_refl) in E. injection E as <-. destruct s; cbn; split; split; intros H; try discriminate; eauto; destruct H; discriminate.
  - rewrite (NaN eq_refl) in E. injection E as <-. cbn. split; split; intros H; try discriminate; destruct H; discriminate.
  - destruct (Fin _ eq_refl) as (m & e' & mv & q' & z & E' & _).
    { intros Z0. assert (T: (0 < 2 ^ e)%Q) by apply two_pos.
      apply Qmult_integral in Z0. destruct Z0 as [Z0|Z0]; [destruct s; discriminate Z0|]. rewrite Z0 in T. discriminate T. }
    rewrite E' in E. injection E as <-. cbn. split; split; intros H; try discriminate; eauto. destruct H; discriminate.
Qed.
Print Assumptions C91_of_float.

(** The tests say of the float an infinite or undefined real is converted to what they say of the real. *)
Theorem C91_to_float_partial (r : real) :
  (real_is_infinite r = true -> exists s, real_f64 r = S754_infinity s)
  /\ (real_is_finite r = false -> f64_value (real_f64 r) = None)
  /\ (real_is_finite r = true -> real_is_infinite r = false)
  /\ (real_is_finite r = false /\ real_is_infinite r = false <-> r = RNaN).
Proof.
  destruct r; cbn; repeat split; intros; try discriminate; eauto; destruct H; discriminate.
Qed.
Print Assumptions C91_to_float_partial.

(** A finite real that no float is near is converted to infinity, and [Real::binary] takes any float as mantissa. *)
Theorem C91_to_float_refuted :
  (exists r q, real_is_finite r = true /\ real_value r = Some q /\ real_f64 r = S754_infinity false)
  /\ (exists r, real_is_finite r = true /\ real_f64 r = S754_nan /\ real_value r = None).
Proof.
  split.
  - exists (real_binary (f64_of_Z 1) 2 1024). eexists. repeat split; vm_compute; reflexivity.
  - exists (real_binary S754_nan 2 0). repeat split; vm_compute; reflexivity.
Qed.
Print Assumptions C91_to_float_refuted.

Example C91_case : real_new (f64_of_Z 30) = Ok (RBinary (f64_of_Z 3) 10 1 10) /\ f64_value (f64_of_Z 30) <> None
  /\ real_is_finite (RBinary (f64_of_Z 3) 10 1 10) = true.
Proof. split; [vm_compute; reflexivity|]. split; [vm_compute; discriminate | reflexivity]. Qed.
