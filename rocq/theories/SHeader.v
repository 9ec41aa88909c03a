(** Specification of BER identifier and length octets, from X.690 8.1.2 and 8.1.3. *)
From Verif Require Import Base MHeader.

(** Value of a big-endian digit string in base [b]. *)
Definition value_be (b : N) (ds : list N) : N := fold_left (fun acc d => acc * b + d) ds 0.

(** Leading identifier octet: bits 8-7 class, bit 6 form, bits 5-1 the low tag number (8.1.2.2). *)
Definition ident_first (c : class) (constructed : bool) (low5 : N) : N :=
  64 * class_num c + (if constructed then 32 else 0) + low5.

(** [ident_octets c k t bs]: [bs] are identifier octets for class [c], form [k], tag number [t]
    (8.1.2.2 and 8.1.2.4): one octet for numbers below 31, or the high-tag-number form, a base-128
    number whose octets but the last have bit 8 set. *)
Inductive ident_octets : class -> bool -> N -> bytes -> Prop :=
| id_low c k t : t < 31 -> ident_octets c k t [ident_first c k t]
| id_high c k ds d :
    Forall (fun x => x < 128) ds -> d < 128 ->
    ident_octets c k (value_be 128 (ds ++ [d]))
                 (ident_first c k 31 :: map (fun x => 128 + x) ds ++ [d]).

(** [length_octets l bs]: [bs] are length octets for [l] (8.1.3.4, 8.1.3.5, 8.1.3.6).  127 subsequent
    octets (leading octet 0xff) are forbidden by 8.1.3.5 c. *)
Inductive length_octets : blength -> bytes -> Prop :=
| lo_short n : n < 128 -> length_octets (Definite n) [n]
| lo_long bs : bytes_ok bs -> 1 <= blen bs <= 126 ->
    length_octets (Definite (value_be 256 bs)) (128 + blen bs :: bs)
| lo_indefinite : length_octets Indefinite [128].

(** [header_octets c k t l idb lenb]: identifier octets [idb] then length octets [lenb]; the
    indefinite form is allowed on constructed encodings only (8.1.3.2 a). *)
Definition header_octets (c : class) (k : bool) (t : N) (l : blength) (idb lenb : bytes) : Prop :=
  ident_octets c k t idb /\ length_octets l lenb /\ (l = Indefinite -> k = true).

(** Limits of this implementation: at most five tag octets after the first, lengths of 64 bits. *)
Definition within_limits (l : blength) (idb : bytes) : Prop :=
  blen idb <= 6 /\ (forall n, l = Definite n -> n < 2 ^ 64).
