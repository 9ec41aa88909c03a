(** Specification of the encodings of SEQUENCE, SET, CHOICE and ENUMERATED types declared by their
    components (X.680 25, 27, 29, 20; X.690 8.9, 8.11, 8.13, 8.4). *)
From Verif Require Import Base MHeader SHeader PEncode SInt SBase SCont.

(** The octets start with an identifier whose tag number, of any class, is one of [tags]. *)
Definition begins_with (tags : list N) (bs : bytes) : Prop :=
  exists c k t idb rest, In t tags /\ ident_shortest c k t idb /\ bs = idb ++ rest.

(** An OPTIONAL component with possible tag numbers [tags]: when it is absent, what follows is not one of
    them. *)
Definition optional_component {A B} (tags : list N) (S : syntax A) (C : B -> bytes -> Prop)
  : option A * B -> bytes -> Prop :=
  fun '(o, y) bs => match o with
                    | Some x => component S C (x, y) bs
                    | None => C y bs /\ ~ begins_with tags bs
                    end.

(** A component with a DEFAULT value, which may be absent when it has that value. *)
Definition default_component {A B} (tags : list N) (d : A) (S : syntax A) (C : B -> bytes -> Prop)
  : A * B -> bytes -> Prop :=
  fun '(x, y) bs => component S C (x, y) bs \/ (x = d /\ C y bs /\ ~ begins_with tags bs).

(** Components, in the order of their declaration: SEQUENCE (tag 16), or SET (17) in that order. *)
Definition struct_syntax {T} (tag : N) (valid : T -> Prop) (C : T -> bytes -> Prop) : syntax T :=
  mk_syntax valid (fun _ => (Universal, true, tag)) C.

(** A value whose contents and whose whole encoding have length octets of the same size. *)
Definition same_size (n m : N) : Prop :=
  (n < 128 <-> m < 128) /\ (n < 2 ^ 8 <-> m < 2 ^ 8) /\ (n < 2 ^ 16 <-> m < 2 ^ 16).
Definition fits {T} (S : syntax T) (v : T) : Prop :=
  forall cb enc, sx_content S v cb -> encodes S v enc -> same_size (blen cb) (blen enc).
Definition fit_syntax {T} (S : syntax T) : syntax T :=
  mk_syntax (fun v => sx_valid S v /\ fits S v) (sx_ident S) (fun v cb => fits S v /\ sx_content S v cb).

(** CHOICE: one of two, and none. *)
Definition sum_syntax {A B} (S : syntax A) (R : syntax B) : syntax (A + B) :=
  mk_syntax (fun v => match v with inl x => sx_valid S x | inr y => sx_valid R y end)
            (fun v => match v with inl x => sx_ident S x | inr y => sx_ident R y end)
            (fun v => match v with inl x => sx_content S x | inr y => sx_content R y end).
Definition void_syntax : syntax Empty_set :=
  mk_syntax (fun _ => True) (fun _ => (Universal, false, 0)) (fun _ _ => True).

(** ENUMERATED with the given values. *)
Definition enumerated_syntax (ds : list N) : syntax N :=
  mk_syntax (fun d => In d ds) (fun _ => (Universal, false, 10))
            (fun d cb => In d ds /\ shortest_form (Z.of_N d) cb).
