(** Specification of segmented strings (X.690 8.6.4, 8.7.3, 10.2). *)
From Verif Require Import Base MHeader SHeader SBer.

(** [string_object tag P d enc v]: [enc] is an encoding, with at most [d] nested levels, of a string
    whose segments carry tag number [tag]; [P content v] gives the value of a primitive content.  The
    value of a constructed encoding is the concatenation of those of its segments. *)
Inductive string_object {X} (tag : N) (P : bytes -> list X -> Prop) : nat -> bytes -> list X -> Prop :=
| so_primitive d c content v idb lenb :
    readable_header c false tag (Definite (blen content)) idb lenb -> P content v ->
    string_object tag P (S d) (idb ++ lenb ++ content) v
| so_definite d c es v idb lenb :
    readable_header c true tag (Definite (blen es)) idb lenb -> string_objects tag P d es v ->
    string_object tag P (S d) (idb ++ lenb ++ es) v
| so_indefinite d c es v idb lenb :
    readable_header c true tag Indefinite idb lenb -> string_objects tag P d es v ->
    string_object tag P (S d) (idb ++ lenb ++ es ++ [0; 0]) v
with string_objects {X} (tag : N) (P : bytes -> list X -> Prop) : nat -> bytes -> list X -> Prop :=
| sos_nil d : string_objects tag P d [] []
| sos_cons d e v es vs :
    string_object tag P d e v -> string_objects tag P d es vs ->
    string_objects tag P d (e ++ es) (v ++ vs).

Scheme string_object_ind' := Induction for string_object Sort Prop
  with string_objects_ind' := Induction for string_objects Sort Prop.
Combined Scheme string_object_objects_ind from string_object_ind', string_objects_ind'.

(** What this implementation reads as segments, [content] being the content of a constructed string:
    objects with tag number [tag] (whatever their class), up to the end or to the first object with tag
    number 0, which it takes for an end-of-contents marker whatever its class, length and content.
    Segments with no content are skipped. *)
Inductive seg {X} (tag : N) (P : bytes -> list X -> Prop) : nat -> bool -> bytes -> list X -> Prop :=
| seg_primitive d content v : content <> [] -> P content v -> seg tag P (S d) false content v
| seg_constructed d content v : content <> [] -> segs tag P d content v -> seg tag P (S d) true content v
with segs {X} (tag : N) (P : bytes -> list X -> Prop) : nat -> bytes -> list X -> Prop :=
| segs_nil d : segs tag P d [] []
| segs_stop d c k t l idb lenb bs rest :
    readable_header c k t l idb lenb -> impl_contents 50 l bs -> t mod 2 ^ 32 = 0 ->
    segs tag P d (idb ++ lenb ++ bs ++ rest) []
| segs_skip d c k t l idb lenb bs rest v :
    readable_header c k t l idb lenb -> impl_contents 50 l bs -> t mod 2 ^ 32 = tag ->
    content_of l bs = [] -> segs tag P d rest v ->
    segs tag P d (idb ++ lenb ++ bs ++ rest) v
| segs_cons d c k t l idb lenb bs rest v vs :
    readable_header c k t l idb lenb -> impl_contents 50 l bs -> t mod 2 ^ 32 = tag ->
    seg tag P d k (content_of l bs) v -> segs tag P d rest vs ->
    segs tag P d (idb ++ lenb ++ bs ++ rest) (v ++ vs).

Scheme seg_ind' := Induction for seg Sort Prop
  with segs_ind' := Induction for segs Sort Prop.
Combined Scheme seg_segs_ind from seg_ind', segs_ind'.

(** Value of a primitive OCTET STRING content: the content. *)
Definition octets_value (content v : bytes) : Prop := v = content.

(** Bits of a byte and of a byte string, most significant first. *)
Definition byte_bits (b : N) (bits : list bool) : Prop :=
  length bits = 8%nat /\ forall n, (n < 8)%nat -> nth n bits false = N.testbit b (7 - N.of_nat n).
Inductive bytes_bits : bytes -> list bool -> Prop :=
| bb_nil : bytes_bits [] []
| bb_cons b bits bs rest : byte_bits b bits -> bytes_bits bs rest -> bytes_bits (b :: bs) (bits ++ rest).

(** Value of a primitive BIT STRING content (8.6.2): a count of 0 to 7 unused bits, then the bits. *)
Definition bits_value (content : bytes) (v : list bool) : Prop :=
  exists unused bs pad, content = unused :: bs /\ bytes_bits bs (v ++ pad) /\ blen pad = unused /\ unused <= 7.

(** Input that starts with a string this implementation reads: primitive, or constructed with segments. *)
Definition string_input {X} (tag : N) (P : bytes -> list X -> Prop) (i rem : bytes) (v : list X) : Prop :=
  exists c k content, starts_with_ber_object c k tag content i rem
    /\ (k = false /\ P content v \/ k = true /\ seg tag P 5 true content v).
