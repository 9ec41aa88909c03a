(** Bytes, results and the few nom combinators the crate uses. *)
From Coq Require Export List NArith ZArith Lia Bool Arith.
From Coq Require Export ZifyBool ZifyNat ZifyN.
Export ListNotations.
Ltac Zify.zify_post_hook ::= Z.div_mod_to_equations.
Global Open Scope N_scope.
Global Arguments N.add : simpl never.
Global Arguments N.mul : simpl never.
Global Arguments N.sub : simpl never.
Global Arguments N.div : simpl never.
Global Arguments N.modulo : simpl never.
Global Arguments N.pow : simpl never.
Global Arguments N.leb : simpl never.
Global Arguments N.ltb : simpl never.
Global Arguments N.eqb : simpl never.
Global Arguments N.of_nat : simpl never.
Global Arguments N.to_nat : simpl never.
Global Arguments N.land : simpl never.
Global Arguments N.lor : simpl never.
Global Arguments N.shiftl : simpl never.
Global Arguments N.shiftr : simpl never.

(** A byte string.  Model of [&[u8]], [Vec<u8>], [Cow<[u8]>] and the data of [Input]. *)
Notation bytes := (list N).

(** Every element is a byte. *)
Definition bytes_ok (bs : bytes) : Prop := Forall (fun b => b < 256) bs.

(** Length as an [N] ([usize] in the code). *)
Definition blen {A} (l : list A) : N := N.of_nat (length l).

(** src/error.rs:19-40 ([DerConstraint]). *)
Inductive der_constraint :=
| DCIndefiniteLength | DCConstructed | DCNotConstructed | DCMissingTimeZone | DCMissingSeconds
| DCUnusedBitsNotZero | DCInvalidBoolean | DCIntegerEmpty | DCIntegerLeadingZeroes
| DCIntegerLeadingFF.

(** src/error.rs:45-99 and 268-322 ([Error], [InnerError]): kinds only, payloads dropped.
    [EFuel] is not in the code: it marks exhaustion of a model's recursion fuel.
    [ETagTooLong] models the [io::Error] of src/to_ber/encoder.rs:69. *)
Inductive error :=
| EBerTypeError | EBerValueError | EInvalidLength | EInvalidValue | EInvalidTag | EUnknownTag
| EUnexpectedTag | EUnexpectedClass | EIndefiniteLengthUnexpected | EConstructExpected
| EConstructUnexpected | EIntegerTooLarge | EIntegerNegative | EBerMaxDepth
| EStringInvalidCharset | EInvalidDateTime | EDerConstraintFailed (c : der_constraint)
| ELifetimeError | EUnsupported | EIncomplete (n : N) | ENomError | ETagTooLong | EFuel.

(** Result of a parser or writer: [IResult]/[Result], with panics made explicit. *)
Inductive res (A : Type) : Type :=
| Ok (a : A)
| Err (e : error)
| Incomplete (n : N)
| Panic.
Arguments Ok {A} a.
Arguments Err {A} e.
Arguments Incomplete {A} n.
Arguments Panic {A}.

(** The [?] operator. *)
Definition bind {A B} (r : res A) (f : A -> res B) : res B :=
  match r with
  | Ok a => f a
  | Err e => Err e
  | Incomplete n => Incomplete n
  | Panic => Panic
  end.

Declare Scope res_scope.
Delimit Scope res_scope with res.
Notation "'let*' x ':=' r 'in' k" := (bind r (fun x => k))
  (at level 200, x pattern, r at level 100, k at level 200, right associativity) : res_scope.
Global Open Scope res_scope.

(** [.map_err(Error::from_nom_berr)] / [AnyIterator::next]: an incomplete result inside an object
    becomes an ordinary error (src/error.rs:380-470, src/asn1_types/iterator.rs:195-199). *)
Definition close {A} (r : res A) : res A :=
  match r with Incomplete n => Err (EIncomplete n) | _ => r end.

(** nom [bytes::streaming::take(n)] with [Input::slice_index] (src/input.rs:160-186):
    the remainder comes first, as in nom. *)
Definition take (n : N) (i : bytes) : res (bytes * bytes) :=
  if n <=? blen i then Ok (skipn (N.to_nat n) i, firstn (N.to_nat n) i)
  else Incomplete (n - blen i).

(** nom [number::streaming::be_u8]. *)
Definition be_u8 (i : bytes) : res (bytes * N) :=
  match i with
  | [] => Incomplete 1
  | b :: r => Ok (r, b)
  end.

Definition is_ok {A} (r : res A) : bool := match r with Ok _ => true | _ => false end.

(** Big-endian bytes of a fixed-width unsigned integer: Rust [to_be_bytes] (k bytes). *)
Fixpoint be_bytes (k : nat) (n : N) : bytes :=
  match k with
  | O => []
  | S k' => be_bytes k' (n / 256) ++ [n mod 256]
  end.

(** Rust [from_be_bytes]. *)
Definition of_be_bytes (bs : bytes) : N := fold_left (fun acc b => acc * 256 + b) bs 0.
