(** Implementations of [CheckDerConstraints] not given with the readers of their types. *)
From Verif Require Import Base MHeader MBer MCont.

(** src/asn1_types/tagged/explicit.rs:333-344 ([TaggedParser<Explicit, T>]): [Any::from_der], where
    [TaggedValue] uses [Any::from_ber]. *)
Definition tp_explicit_check {T} (L : legacy T) (a : any) : res unit :=
  let* _ := length_assert_definite (h_length (any_header a)) in
  let* (_, inner) := close (from_der any_codec (any_data a)) in
  lg_check L inner.

(** src/asn1_types/tagged/implicit.rs:324-341 ([TaggedParser<Implicit, T>]) *)
Definition tp_implicit_check {T} (L : legacy T) (a : any) : res unit :=
  let* _ := length_assert_definite (h_length (any_header a)) in
  lg_check L (mk_any (with_tag (any_header a) (lg_tag L)) (any_data a)).

(** src/asn1_types/optional.rs:146-153 *)
Definition option_check {T} (L : legacy T) (a : any) : res unit := lg_check L a.
