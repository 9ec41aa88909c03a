(** Specification of INTEGER contents, from X.690 8.3. *)
From Verif Require Import Base SHeader.

(** Two's complement value of a big-endian octet string (8.3.3): the first octet counts as a signed
    digit, the others as unsigned ones. *)
Definition twos (bs : bytes) : Z :=
  match bs with
  | [] => 0
  | b :: r => (if (b <? 128)%N then Z.of_N b else Z.of_N b - 256) * 256 ^ Z.of_nat (length r)
              + Z.of_N (value_be 256 r)
  end%Z.

(** No octet string with the same value is shorter (8.3.2). *)
Definition shortest (bs : bytes) : Prop :=
  bs <> [] /\ forall bs', bytes_ok bs' -> bs' <> [] -> twos bs' = twos bs -> (length bs <= length bs')%nat.

(** Range of the signed and unsigned types of [w] octets. *)
Definition in_signed (w : nat) (v : Z) : Prop :=
  (- 2 ^ (8 * Z.of_nat w - 1) <= v < 2 ^ (8 * Z.of_nat w - 1))%Z.
Definition in_unsigned (w : nat) (v : Z) : Prop := (0 <= v < 2 ^ (8 * Z.of_nat w))%Z.
