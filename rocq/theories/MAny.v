(** Conversions from [Any] by method, object contents after a header, and arithmetic on lengths. *)
From Verif Require Import Base MHeader MEncode MBer MOid.

(** src/asn1_types/any.rs:241-283 (the macros [impl_any_into!] and [impl_any_as!]), used for the methods of
    src/asn1_types/any.rs:285-307, 313-355, 361-380, e.g. [Any::bool] and [Any::as_bool].  The method consuming
    the object and the one copying it run the same code on the same data. *)
Definition any_as {T} (p : codec T) (a : any) : res T :=
  let* (_, x) := close (ber_content p (any_header a) (any_data a)) in
  Ok x.

(** src/asn1_types/any.rs:308-312, 356-360 ([Any::relative_oid], [Any::as_relative_oid]). *)
Definition any_relative_oid (a : any) : res oid :=
  let* _ := assert_tag (any_header a) TagRelativeOid in
  Ok (mk_oid (any_data a) true).

(** src/asn1_types/any.rs:172-178 ([Any::parse_ber_content]). *)
Definition any_ber_object_content (h : header) (i : bytes) : res (bytes * bytes) := header_ber_content h i.

(** src/asn1_types/any.rs:181-190 ([Any::parse_der_content]). *)
Definition any_der_object_content (h : header) (i : bytes) : res (bytes * bytes) :=
  let* _ := header_assert_definite h in
  der_get_content h i.

(** [usize] addition with overflow checks (a build without them wraps modulo 2^64 instead). *)
Definition usize_add (a b : N) : res N := if a + b <? 2 ^ 64 then Ok (a + b) else Panic.

(** src/length.rs:71-83 ([Add<Length> for Length]). *)
Definition length_plus (a b : blength) : res blength :=
  match a with
  | Indefinite => Ok a
  | Definite x =>
    match b with
    | Indefinite => Ok b
    | Definite y => let* s := usize_add x y in Ok (Definite s)
    end
  end.
(** src/length.rs:85-93 ([AddAssign<Length> for Length]). *)
Definition length_plus_assign (a b : blength) : res blength :=
  match a, b with
  | Definite x, Definite y => let* s := usize_add x y in Ok (Definite s)
  | Indefinite, _ => Ok a
  | _, Indefinite => Ok b
  end.
(** src/length.rs:95-104, 117-124 ([Add<usize> for Length], [AddAssign<usize> for Length]). *)
Definition length_plus_usize (a : blength) (n : N) : res blength :=
  match a with
  | Definite x => let* s := usize_add x n in Ok (Definite s)
  | Indefinite => Ok a
  end.
(** src/length.rs:106-115 ([Add<Length> for usize]). *)
Definition usize_plus_length (n : N) (a : blength) : res blength :=
  match a with
  | Definite x => let* s := usize_add n x in Ok (Definite s)
  | Indefinite => Ok a
  end.
(** src/length.rs:126-136 ([Sum<Length>] and [Sum<&Length>]). *)
Fixpoint length_total (acc : blength) (ls : list blength) : res blength :=
  match ls with
  | [] => Ok acc
  | l :: ls => let* acc := length_plus acc l in length_total acc ls
  end.
Definition length_iter_sum (ls : list blength) : res blength := length_total (Definite 0) ls.
