(** Model of the orders of values by which a [BTreeSet] keeps them. *)
From Verif Require Import Base MHeader MText MTime.

(** A comparison, and the next one where the first finds no difference ([#[derive(PartialOrd, Ord)]] of Rust). *)
Definition then_cmp (a b : comparison) : comparison := match a with Eq => b | _ => a end.

(** [Ord] of slices (of the standard library), which [&[u8]] has: the first difference decides, then the length. *)
Fixpoint slice_cmp (a b : bytes) : comparison :=
  match a, b with
  | [], [] => Eq
  | [], _ :: _ => Lt
  | _ :: _, [] => Gt
  | x :: a, y :: b => then_cmp (x ?= y) (slice_cmp a b)
  end.

(** [Ord] of [str] and [String] (of the standard library): that of their bytes. *)
Definition str_cmp (s t : list N) : comparison := slice_cmp (str_bytes s) (str_bytes t).

(** [Ord] of [Option] (of the standard library): [None] comes first. *)
Definition option_cmp (a b : option N) : comparison :=
  match a, b with
  | None, None => Eq
  | None, Some _ => Lt
  | Some _, None => Gt
  | Some x, Some y => x ?= y
  end.

(** src/datetime.rs:9-19 (derived): the variants in the order of their declaration, then their fields. *)
Definition tz_cmp (a b : tz) : comparison :=
  match a, b with
  | TzUndefined, TzUndefined => Eq
  | TzUndefined, _ => Lt
  | TzZ, TzUndefined => Gt
  | TzZ, TzZ => Eq
  | TzZ, TzOffset _ _ => Lt
  | TzOffset h m, TzOffset h' m' => then_cmp (h ?= h')%Z (m ?= m')%Z
  | TzOffset _ _, _ => Gt
  end.

(** src/datetime.rs:21-31 (derived), src/asn1_types/utctime.rs:7-8, src/asn1_types/generalizedtime.rs:10-11 *)
Definition datetime_cmp (a b : datetime) : comparison :=
  then_cmp (dt_year a ?= dt_year b) (then_cmp (dt_month a ?= dt_month b) (then_cmp (dt_day a ?= dt_day b)
    (then_cmp (dt_hour a ?= dt_hour b) (then_cmp (dt_minute a ?= dt_minute b) (then_cmp (dt_second a ?= dt_second b)
      (then_cmp (option_cmp (dt_millisecond a) (dt_millisecond b)) (tz_cmp (dt_tz a) (dt_tz b)))))))).
