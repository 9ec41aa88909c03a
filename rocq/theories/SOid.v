(** Specification of object identifier contents (X.690 8.19, 8.20). *)
From Verif Require Import Base SHeader.

(** [subid n bs]: [bs] is a sub-identifier of value [n]: base 128, bit 8 set on all octets but the last
    (8.19.2). *)
Definition subid (n : N) (bs : bytes) : Prop :=
  exists ds d, bs = map (fun x => 128 + x) ds ++ [d] /\ Forall (fun x => x < 128) ds /\ d < 128
               /\ n = value_be 128 (ds ++ [d]).
(** The fewest octets: the leading octet is not 0x80. *)
Definition subid_shortest (n : N) (bs : bytes) : Prop := subid n bs /\ hd 0 bs <> 0x80.

(** Concatenated sub-identifiers. *)
Inductive subids (P : N -> bytes -> Prop) : list N -> bytes -> Prop :=
| subids_nil : subids P [] []
| subids_cons n ns b bs : P n b -> subids P ns bs -> subids P (n :: ns) (b ++ bs).

(** Contents of an OBJECT IDENTIFIER with the given arcs (8.19.3, 8.19.4): the first two are packed in
    the first sub-identifier. *)
Definition valid_arcs (arcs : list N) : Prop :=
  exists a b rest, arcs = a :: b :: rest /\ a <= 2 /\ (a < 2 -> b < 40).
Definition oid_contents (arcs : list N) (bs : bytes) : Prop :=
  exists a b rest, arcs = a :: b :: rest /\ a <= 2 /\ (a < 2 -> b < 40)
                   /\ subids subid_shortest (40 * a + b :: rest) bs.

(** Decimal text of a number: digits, no superfluous leading zero. *)
Definition decimal_text (n : N) (s : list N) : Prop :=
  exists ds, s = map (fun d => 48 + d) ds /\ Forall (fun d => d < 10) ds /\ n = value_be 10 ds
             /\ (ds = [0] \/ hd 0 ds <> 0).
(** Numbers separated by dots. *)
Inductive dotted : list N -> list N -> Prop :=
| dotted_one n s : decimal_text n s -> dotted [n] s
| dotted_cons n s ns r : decimal_text n s -> dotted ns r -> dotted (n :: ns) (s ++ 46 :: r).
(** Numerals as [u64::from_str] takes them: an optional plus sign, leading zeros allowed. *)
Definition numeral (n : N) (s : list N) : Prop :=
  exists sign ds, s = sign ++ map (fun d => 48 + d) ds /\ (sign = [] \/ sign = [43]) /\ ds <> []
                  /\ Forall (fun d => d < 10) ds /\ n = value_be 10 ds.
Inductive dotted_numerals : list N -> list N -> Prop :=
| dn_one n s : numeral n s -> dotted_numerals [n] s
| dn_cons n s ns r : numeral n s -> dotted_numerals ns r -> dotted_numerals (n :: ns) (s ++ 46 :: r).
