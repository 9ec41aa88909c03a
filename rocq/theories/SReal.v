(** Specification of REAL, from X.690 8.5: the number denoted by contents octets in binary form, and by a
    value of the Rust types. *)
From Coq Require Import SpecFloat QArith Qpower Qabs.
From Verif Require Import Base SHeader SInt MReal.
Local Open Scope Q_scope.

(** The number held by a floating-point datum; none for infinities and NaN. *)
Definition f64_value (x : spec_float) : option Q :=
  match x with
  | S754_zero _ => Some 0
  | S754_finite s m e => Some (inject_Z (if s then Z.neg m else Z.pos m) * 2 ^ e)
  | S754_infinity _ | S754_nan => None
  end.

(** The number held by a [Real]: mantissa times base to the exponent (documentation of [Real::Binary]). *)
Definition real_value (r : real) : option Q :=
  match r with
  | RZero => Some 0
  | RBinary m base e _ =>
      match f64_value m with Some q => Some (q * inject_Z (Z.of_N base) ^ e) | None => None end
  | _ => None
  end.

Definition holds (r : real) (q : Q) : Prop := exists q', real_value r = Some q' /\ q' == q.

(** 8.5.7: sign, base (code 0, 1, 2 for 2, 8, 16), scale factor, exponent and number of a binary value. *)
Record binary_parts := mk_parts {
  bp_negative : bool;
  bp_base_code : N;
  bp_factor : N;
  bp_exponent : Z;
  bp_number : N
}.
Definition base_of (code : N) : Z := match code with 0%N => 2 | 1%N => 8 | _ => 16 end.
Definition parts_value (p : binary_parts) : Q :=
  (if bp_negative p then - (1) else 1) * inject_Z (Z.of_N (bp_number p)) * 2 ^ Z.of_N (bp_factor p)
  * inject_Z (base_of (bp_base_code p)) ^ bp_exponent p.

(** The octets: the first one, a length octet for the exponent if its two low bits are 11, the exponent in
    two's complement, the number as unsigned binary. *)
Definition first_octet (p : binary_parts) (len_code : N) : N :=
  (128 + (if bp_negative p then 64 else 0) + 16 * bp_base_code p + 4 * bp_factor p + len_code)%N.
Definition in_parts (p : binary_parts) (eo mo : bytes) : Prop :=
  (bp_base_code p <= 2)%N /\ (bp_factor p <= 3)%N /\ bytes_ok eo /\ bytes_ok mo /\ eo <> [] /\ mo <> []
  /\ twos eo = bp_exponent p /\ value_be 256 mo = bp_number p.
Definition short_form (p : binary_parts) (eo mo cb : bytes) : Prop :=
  in_parts p eo mo /\ exists code, (code <= 2)%N /\ blen eo = (code + 1)%N /\ cb = first_octet p code :: eo ++ mo.
Definition long_form (p : binary_parts) (eo mo cb : bytes) : Prop :=
  in_parts p eo mo /\ cb = first_octet p 3 :: blen eo :: eo ++ mo.
(** Contents octets denoting a number in binary form. *)
Definition denotes (cb : bytes) (q : Q) : Prop :=
  exists p eo mo, (short_form p eo mo cb \/ long_form p eo mo cb) /\ q == parts_value p.

(** The exponents which are written in as many octets as the absolute value takes and read back. *)
Definition exponent_fits (e : Z) : Prop :=
  (-128 <= e <= 127 \/ 256 <= Z.abs e /\ -32768 <= e <= 32767 \/ 65536 <= Z.abs e /\ -8388608 <= e <= 8388607)%Z.
