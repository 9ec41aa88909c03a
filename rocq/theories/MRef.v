(** Writing through references, the default writing methods on [Option], and the tests on [Real]. *)
From Coq Require Import SpecFloat.
From Verif Require Import Base MHeader MEncode MBer MInt MCont MReal.

(** src/to_ber.rs:127-146, src/to_der.rs:162-180 ([ToBer] and [ToDer] for [&T]): the three methods without
    default are passed on, the others are the defaults. *)
Definition ref_tober (w : tober) : tober :=
  mk_tober (tb_encoder w) (tb_class w) (tb_constructed w) (tb_tag w) (tb_content_len w) (tb_write_content w).

(** What the default methods ask of an [Option] (src/asn1_types/optional.rs:176-198, 208-230): [class] and
    [constructed] are the defaults of [DynTagged] (src/tag.rs:111-118), [tag] is [option_tag]. *)
Definition option_tober (o : option tober) : res tober :=
  let* t := option_tag o in
  Ok (mk_tober EncGeneric Universal false t
               (match o with Some w => tb_content_len w | None => Definite 0 end)
               (match o with Some w => tb_write_content w | None => Ok ([], 0) end)).

(** src/to_ber.rs:66-70, src/to_der.rs:82-86 on [&Option<T>]: [ber_encode] is overridden for [Option] only. *)
Definition ref_option_encode (o : option tober) : wres := let* w := option_tober o in encode w.

(** src/to_ber.rs:77-109, src/to_der.rs:93-125 on [Option<T>]. *)
Definition option_encode_explicit (c : class) (tag : N) (o : option tober) : wres :=
  let* w := option_tober o in encode_tagged_explicit c tag w.
Definition option_encode_implicit (c : class) (tag : N) (o : option tober) : wres :=
  let* w := option_tober o in encode_tagged_implicit c tag w.

(** src/asn1_types/real.rs:115-126 ([is_infinite], [is_finite]) *)
Definition real_is_infinite (r : real) : bool :=
  match r with RInfinity | RNegInfinity => true | _ => false end.
Definition real_is_finite (r : real) : bool :=
  match r with RZero | RBinary _ _ _ _ => true | _ => false end.
