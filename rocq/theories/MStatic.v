(** * Copies without borrowed parts ([ToStatic])

    src/tostatic.rs; src/header.rs:304-320; src/asn1_types/sequence.rs:355-375; src/asn1_types/set.rs:350-358; derive/src/tostatic.rs.

    Types are those which have [ToStatic], with their lifetimes; a declaration is the list of the fields of its variants (a struct has
    one).  Simplified: [isize] and [usize] are the integers of 64 bits, a type or const parameter has no default. *)
From Verif Require Import Base MHeader MEncode MInt MText MCont MRef MColl.

(** Values.  A [Cow<str>] says whether it owns its text; [ODerived d v fs] is variant [v] of declaration [d]. *)
Inductive obj :=
| OBool (b : bool)
| OInt (signed : bool) (w : nat) (z : Z)
| OString (s : list N)
| OStr (s : list N)
| OCowStr (own : bool) (s : list N)
| OCowBytes (c : cow)
| OSequence (c : cow)
| OSet (c : cow)
| OHeader (h : header)
| OVec (l : list obj)
| OOption (o : option obj)
| OBox (o : obj)
| ORef (o : obj)
| ODerived (d : N) (v : nat) (fs : list obj).

(** src/tostatic.rs:10-91 ([Cow], primitive types, references, [Option], [String], [str], [Box]); src/header.rs:307-319;
    src/asn1_types/sequence.rs:358-362 ([Sequence]), 372-374 ([Vec]); src/asn1_types/set.rs:353-357; derive/src/tostatic.rs:16-32
    (derived: each field, in the same variant). *)
Fixpoint to_static (o : obj) : obj :=
  match o with
  | OBool b => OBool b
  | OInt k w z => OInt k w z
  | OString s => OString s
  | OStr s => OString s
  | OCowStr _ s => OCowStr true s
  | OCowBytes c => OCowBytes (raw_to_static c)
  | OSequence c => OSequence (raw_to_static c)
  | OSet c => OSet (raw_to_static c)
  | OHeader h => OHeader (header_to_static h)
  | OVec l => OVec (map to_static l)
  | OOption o => OOption (option_map to_static o)
  | OBox o => OBox (to_static o)
  | ORef o => to_static o
  | ODerived d v fs => ODerived d v (map to_static fs)
  end.

(** ** Types *)

Inductive life := LStatic | LNamed (k : nat).
Inductive otype :=
| TyBool | TyInt (signed : bool) (w : nat) | TyString | TyStr
| TyCowStr (a : life) | TyCowBytes (a : life) | TySequence (a : life) | TySet (a : life) | TyHeader (a : life)
| TyVec (t : otype) | TyOption (t : otype) | TyBox (t : otype) | TyRef (a : life) (t : otype)
| TyNamed (d : N) (args : list life).

(** The parameters of a declaration. *)
Inductive generic := GLifetime | GType | GConst.
Record decl := mk_decl { d_generics : list generic; d_variants : list (list otype) }.
Definition decls := N -> option decl.

(** derive/src/tostatic.rs:36-47: the arguments in [type Owned = S<...>]; only lifetimes are looked at. *)
Definition owned_args (l : list generic) : list life :=
  map (fun _ => LStatic) (filter (fun g => match g with GLifetime => true | _ => false end) l).

(** The associated type [Owned]: src/tostatic.rs:11, 18, 27, 35, 57, 68, 84; src/header.rs:305; src/asn1_types/sequence.rs:356, 370;
    src/asn1_types/set.rs:351; derive/src/tostatic.rs:52. *)
Fixpoint owned_type (env : decls) (t : otype) : otype :=
  match t with
  | TyBool => TyBool
  | TyInt k w => TyInt k w
  | TyString => TyString
  | TyStr => TyString
  | TyCowStr _ => TyCowStr LStatic
  | TyCowBytes _ => TyCowBytes LStatic
  | TySequence _ => TySequence LStatic
  | TySet _ => TySet LStatic
  | TyHeader _ => TyHeader LStatic
  | TyVec t => TyVec (owned_type env t)
  | TyOption t => TyOption (owned_type env t)
  | TyBox t => TyBox (owned_type env t)
  | TyRef _ t => owned_type env t
  | TyNamed d _ => TyNamed d (match env d with Some D => owned_args (d_generics D) | None => [] end)
  end.

(** A type with other lifetimes for those of the declaration. *)
Fixpoint with_lives (f : life -> life) (t : otype) : otype :=
  match t with
  | TyBool => TyBool
  | TyInt k w => TyInt k w
  | TyString => TyString
  | TyStr => TyStr
  | TyCowStr a => TyCowStr (f a)
  | TyCowBytes a => TyCowBytes (f a)
  | TySequence a => TySequence (f a)
  | TySet a => TySet (f a)
  | TyHeader a => TyHeader (f a)
  | TyVec t => TyVec (with_lives f t)
  | TyOption t => TyOption (with_lives f t)
  | TyBox t => TyBox (with_lives f t)
  | TyRef a t => TyRef (f a) (with_lives f t)
  | TyNamed d args => TyNamed d (map f args)
  end.
Definition instance (args : list life) : otype -> otype :=
  with_lives (fun a => match a with LStatic => LStatic | LNamed k => nth k args LStatic end).

(** What the compiler asks of the code generated by derive/src/tostatic.rs:50-59: [S<'static>] names a type, and each [to_static] of a
    field gives the type that the field has in it. *)
Definition derivable (env : decls) (D : decl) : Prop :=
  length (owned_args (d_generics D)) = length (d_generics D)
  /\ Forall (Forall (fun t => owned_type env t = instance (owned_args (d_generics D)) t)) (d_variants D).

(** ** Writing *)

(** [ToBer] and [ToDer], which write the same for these types: src/asn1_types/boolean.rs:179-213, integer.rs:146-188, 245-286,
    strings/string.rs:62-79, strings/str.rs:72-89, sequence.rs:463-484, set.rs:444-465, sequence/vec.rs:180-231, src/header.rs:413-443,
    src/to_ber.rs:127-146.  [None]: no writer ([str], [Box], [Cow]), or not described here ([Option] inside other types, see [obj_write]). *)
Fixpoint obj_tober (o : obj) : option tober :=
  match o with
  | OBool b => Some (tober_bool b)
  | OInt true w z => Some (tober_int w z)
  | OInt false w z => Some (tober_uint w z)
  | OString s => Some (tober_str s)
  | OSequence c => Some (raw_tober TagSequence (cow_bytes c))
  | OSet c => Some (raw_tober TagSet (cow_bytes c))
  | OHeader h => Some (tober_header h)
  | OVec l => option_map (items_tober TagSequence)
      (fold_right (fun o r => match obj_tober o, r with Some w, Some ws => Some (w :: ws) | _, _ => None end) (Some []) l)
  | ORef (OStr s) => Some (tober_str s)
  | ORef o => option_map ref_tober (obj_tober o)
  | _ => None
  end.
(** [ber_encode]: overridden for [Option] (src/asn1_types/optional.rs:200-205, 232-237), not for references to it. *)
Definition option_items (o : option obj) : option (option tober) :=
  match o with None => Some None | Some x => option_map Some (obj_tober x) end.
Fixpoint referred (o : obj) : obj := match o with ORef o => referred o | _ => o end.
Definition obj_write (o : obj) : option wres :=
  match o with
  | OOption x => option_map option_encode (option_items x)
  | ORef r =>
      match referred r with
      | OOption x => option_map ref_option_encode (option_items x)
      | _ => option_map encode (obj_tober o)
      end
  | _ => option_map encode (obj_tober o)
  end.
