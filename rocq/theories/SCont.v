(** Specification of the encodings of structured values (X.690 8.9 to 8.14, 10.1). *)
From Verif Require Import Base MHeader SHeader PEncode.

(** What the notation of a type fixes: the identifier of a value, the contents octets of a value, and
    which values belong to the type. *)
Record syntax (T : Type) := mk_syntax {
  sx_valid : T -> Prop;
  sx_ident : T -> class * bool * N;
  sx_content : T -> bytes -> Prop
}.
Arguments mk_syntax {T}.
Arguments sx_valid {T}.
Arguments sx_ident {T}.
Arguments sx_content {T}.

(** The encoding of a value: shortest identifier octets, shortest definite length octets, contents. *)
Definition encodes {T} (S : syntax T) (v : T) (enc : bytes) : Prop :=
  exists c k t cb idb lenb,
    sx_ident S v = (c, k, t) /\ sx_content S v cb
    /\ ident_shortest c k t idb /\ length_shortest (Definite (blen cb)) lenb
    /\ enc = idb ++ lenb ++ cb.

(** Concatenated encodings of the items of a list (8.10.2, 8.12.2). *)
Inductive items_content {T} (S : syntax T) : list T -> bytes -> Prop :=
| items_nil : items_content S [] []
| items_cons v vs enc bs : encodes S v enc -> items_content S vs bs -> items_content S (v :: vs) (enc ++ bs).

(** SEQUENCE OF and SET OF: constructed, universal tag number 16 or 17. *)
Definition list_syntax {T} (tag : N) (S : syntax T) : syntax (list T) :=
  mk_syntax (Forall (sx_valid S)) (fun _ => (Universal, true, tag)) (items_content S).

(** A SEQUENCE OF with exactly [n] items. *)
Definition array_syntax {T} (n : nat) (S : syntax T) : syntax (list T) :=
  mk_syntax (fun v => Forall (sx_valid S) v /\ length v = n) (fun _ => (Universal, true, 16))
            (fun v cb => length v = n /\ items_content S v cb).

(** The components of a SEQUENCE, one after the other (8.9.2). *)
Definition no_component : unit -> bytes -> Prop := fun _ bs => bs = [].
Definition component {A B} (S : syntax A) (C : B -> bytes -> Prop) : A * B -> bytes -> Prop :=
  fun '(x, y) bs => exists e r, encodes S x e /\ C y r /\ bs = e ++ r.
Definition sequence_syntax {T} (C : T -> bytes -> Prop) : syntax T :=
  mk_syntax (fun _ => True) (fun _ => (Universal, true, 16)) C.

(** Explicit tagging (8.14.2): constructed, the contents are the complete encoding. *)
Definition explicit_syntax {T} (c : class) (t : N) (S : syntax T) : syntax T :=
  mk_syntax (sx_valid S) (fun _ => (c, true, t)) (encodes S).

(** Implicit tagging (8.14.3): class and number are replaced, form and contents are kept. *)
Definition implicit_syntax {T} (c : class) (t : N) (S : syntax T) : syntax T :=
  mk_syntax (sx_valid S) (fun v => (c, snd (fst (sx_ident S v)), t)) (sx_content S).

(** [reads_all p i vs]: reading [i] with [p] again and again, until nothing is left, gives [vs]. *)
Inductive reads_all {T} (p : bytes -> res (bytes * T)) : bytes -> list T -> Prop :=
| ra_nil : reads_all p [] []
| ra_cons i rem v vs : i <> [] -> p i = Ok (rem, v) -> reads_all p rem vs -> reads_all p i (v :: vs).

(** A SET OF whose values are kept in ascending order, without duplicates. *)
Fixpoint ascending {T} (cmp : T -> T -> comparison) (l : list T) : Prop :=
  match l with
  | [] => True
  | x :: r => Forall (fun y => cmp x y = Lt) r /\ ascending cmp r
  end.
Definition set_syntax {T} (cmp : T -> T -> comparison) (S : syntax T) : syntax (list T) :=
  mk_syntax (fun v => Forall (sx_valid S) v /\ ascending cmp v) (fun _ => (Universal, true, 17))
            (fun v cb => ascending cmp v /\ items_content S v cb).
