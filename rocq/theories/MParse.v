(** * Derived structs with fields read by a custom parser

    derive/src/container.rs:264-404, 912-943 (new derives [Sequence] and [Set]); derive/src/options.rs ([orig_input]).
    The older derives also generate [TryFrom] (162-212), in which the variable [rem] the attribute uses does not exist: a struct
    with the attribute does not compile with them.  The writers ([ToBer], [ToDer]) do not look at the attribute. *)
From Coq Require Import List NArith.
From Verif Require Import Base MHeader MEncode MBer MInt MCont MDerive.
Import ListNotations.

(** One field after the other, in the order of the declaration.  The code generated for a field stands in the scope of the variables
    holding the fields before it, so the rest depends on the value read. *)
Inductive pfields : Type -> Type :=
| PNil : pfields unit
(** No attribute: the readers of MDerive.v, for BER and for DER (container.rs:945-1010). *)
| PDeclared {A B} (ber der : bytes -> res (bytes * A)) (rest : A -> pfields B) : pfields (A * B)
(** derive/src/container.rs:934-943 ([get_field_berparser]): [let parse = e; let (rem, name) = parse(rem)?;], for BER and DER alike,
    whatever the other attributes of the field.  A closure sees [header] (the parameter of [from_ber_content] and
    [from_der_content], 372-404) and, with the attribute [orig_input] (297-300), the contents of the struct. *)
| PCustom {A B} (parse : header -> bytes -> bytes -> res (bytes * A)) (rest : A -> pfields B) : pfields (A * B).

(** derive/src/container.rs:912-921 ([derive_berparser_sequence_content]): the statements of the fields. *)
Fixpoint pread (der : bool) {A} (ps : pfields A) (h : header) (orig i : bytes) : res (bytes * A) :=
  match ps in pfields A return res (bytes * A) with
  | PNil => Ok (i, tt)
  | PDeclared pber pder rest =>
    let* (i, x) := (if der then pder else pber) i in
    let* (i, y) := pread der (rest x) h orig i in
    Ok (i, (x, y))
  | PCustom parse rest =>
    let* (i, x) := parse h orig i in
    let* (i, y) := pread der (rest x) h orig i in
    Ok (i, (x, y))
  end.

(** derive/src/container.rs:350-365: [orig_input] is a copy of [input], [rem] is [input]. *)
Definition custom_content (der : bool) {A} (ps : pfields A) (h : header) (input : bytes) : res (bytes * A) :=
  let orig_input := input in
  let rem := input in
  let* _ := assert_constructed h in
  pread der ps h orig_input rem.

(** derive/src/container.rs:264-404 ([gen_berparser]). *)
Definition custom_parser {A} (tag : N) (ps : pfields A) : parser A :=
  default_parser (is_tag tag) (custom_content false ps) (custom_content true ps).
