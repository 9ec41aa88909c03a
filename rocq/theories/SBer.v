(** Specification of BER objects (X.690 8.1): identifier and length octets followed by contents,
    closed by an end-of-contents marker when the length is indefinite. *)
From Verif Require Import Base MHeader SHeader.

(** Header octets this implementation can read. *)
Definition readable_header (c : class) (k : bool) (t : N) (l : blength) (idb lenb : bytes) : Prop :=
  header_octets c k t l idb lenb /\ within_limits l idb.

(** What the implementation takes for an end-of-contents marker: any header with tag number 0
    (modulo 2^32) and definite length 0, whatever its class, form and number of octets.
    X.690 8.1.5 allows only the two octets 00 00. *)
Definition marker_like (m : bytes) : Prop :=
  exists c k t idb lenb, readable_header c k t (Definite 0) idb lenb /\ t mod 2 ^ 32 = 0
                         /\ m = idb ++ lenb.

(** [contents m ex d l bs]: [bs] are the octets following a header with length [l], up to the end of
    the object.  [d] bounds the depth of nesting (the object itself counts); [m] says what closes an
    indefinite-length object; [ex] says which headers its sub-objects must not have. *)
Inductive contents (m ex : bytes -> Prop) : nat -> blength -> bytes -> Prop :=
| contents_definite d n bs : blen bs = n -> contents m ex (S d) (Definite n) bs
| contents_indefinite d es mk :
    elements m ex (S d) es -> m mk -> contents m ex (S (S d)) Indefinite (es ++ mk)
with elements (m ex : bytes -> Prop) : nat -> bytes -> Prop :=
| elements_nil d : elements m ex d []
| elements_cons d c k t l idb lenb bs rest :
    readable_header c k t l idb lenb -> ~ ex (idb ++ lenb) ->
    contents m ex d l bs -> elements m ex d rest ->
    elements m ex d (idb ++ lenb ++ bs ++ rest).

Scheme contents_ind' := Induction for contents Sort Prop
  with elements_ind' := Induction for elements Sort Prop.
Combined Scheme contents_elements_ind from contents_ind', elements_ind'.

(** The end-of-contents marker of the standard (8.1.5). *)
Definition marker_standard (m : bytes) : Prop := m = [0; 0].

(** Contents as in X.690. *)
Definition standard_contents := contents marker_standard marker_standard.

(** Contents as this implementation reads them. *)
Definition impl_contents := contents marker_like marker_like.

(** [i] starts with a definite-length object of class [c], form [k], tag number [tag] (modulo 2^32)
    and the given content; [rem] follows. *)
Definition starts_with_object (c : class) (k : bool) (tag : N) (content i rem : bytes) : Prop :=
  exists t idb lenb, readable_header c k t (Definite (blen content)) idb lenb /\ t mod 2 ^ 32 = tag
                     /\ i = idb ++ lenb ++ content ++ rem.

(** The contents proper: without the two closing octets of an indefinite-length object. *)
Definition content_of (l : blength) (bs : bytes) : bytes :=
  match l with Definite _ => bs | Indefinite => firstn (length bs - 2) bs end.

(** The same with a length of either form; the object ends where this implementation says. *)
Definition starts_with_ber_object (c : class) (k : bool) (tag : N) (content i rem : bytes) : Prop :=
  exists t l idb lenb bs, readable_header c k t l idb lenb /\ t mod 2 ^ 32 = tag
    /\ i = idb ++ lenb ++ bs ++ rem /\ impl_contents 50 l bs /\ content = content_of l bs.
