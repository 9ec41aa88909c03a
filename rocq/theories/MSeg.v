(** Model of segmented (constructed) strings, OCTET STRING and BIT STRING. *)
From Verif Require Import Base MHeader MEncode MBer MInt.

(** src/ber/appendable.rs:43-60: the loop over the segments.  The iterator is inlined: it stops on
    empty input, and its errors are final.  [seg] is the recursive call. *)
Fixpoint seg_loop {T} (accept : N -> bool) (append : T -> T -> T)
    (seg : header -> bytes -> res (bytes * T)) (fuel : nat) (data : bytes) (v : T) : res T :=
  match fuel with
  | O => Err EFuel
  | S f =>
      if blen data =? 0 then Ok v
      else
        let* (rem, obj) := close (any_parse_ber data) in
        let h2 := any_header obj in
        if h_tag h2 =? TagEndOfContent then Ok v
        else if negb (accept (h_tag h2)) then Err EInvalidTag
        else if blen (any_data obj) =? 0 then seg_loop accept append seg f rem v
        else
          let* (_, part) := seg h2 (any_data obj) in
          seg_loop accept append seg f rem (append v part)
  end.

(** src/ber/appendable.rs:18-67.  [prim] is [T::from_ber_content], called on primitive headers only. *)
Fixpoint parse_ber_segmented {T} (accept : N -> bool) (dflt : T) (append : T -> T -> T)
    (prim : header -> bytes -> res (bytes * T)) (limit : nat) (h : header) (i : bytes)
  : res (bytes * T) :=
  match limit with
  | O => Err EBerMaxDepth
  | S limit =>
      if blen i =? 0 then Err EInvalidLength
      else if h_constructed h then
        let* (rem, data) := if is_definite (h_length h) then ber_get_content h i else Ok ([], i) in
        let* v := seg_loop accept append
                    (parse_ber_segmented accept dflt append prim limit) (S (length data)) data dflt in
        Ok (rem, v)
      else
        let* (rem, data) := ber_get_content h i in
        let* (_, t) := prim h data in
        Ok (rem, t)
  end.

(** src/asn1_types/octetstring.rs:6 *)
Definition OCTETSTRING_MAX_RECURSION : nat := 5.

(** src/asn1_types/octetstring.rs:66-74, 107-118: primitive content and [append]; the value is its bytes. *)
Definition octet_prim (h : header) (i : bytes) : res (bytes * bytes) := Ok ([], i).
Definition octet_segmented (h : header) (i : bytes) : res (bytes * bytes) :=
  parse_ber_segmented (is_tag TagOctetString) [] (@app N) octet_prim OCTETSTRING_MAX_RECURSION h i.

(** src/asn1_types/octetstring.rs:57-77 *)
Definition octet_ber_content (h : header) (i : bytes) : res (bytes * bytes) :=
  if negb (h_constructed h) then octet_prim h i else octet_segmented h i.

(** src/asn1_types/octetstring.rs:79-91 *)
Definition octet_der_content (h : header) (i : bytes) : res (bytes * bytes) :=
  let* _ := assert_primitive h in octet_ber_content h i.

(** src/asn1_types/octetstring.rs:93-99 (and the other string types: only [assert_primitive]). *)
Definition check_primitive (a : any) : res unit := assert_primitive (any_header a).

Definition octet_codec : codec bytes :=
  mk_codec (is_tag TagOctetString) octet_ber_content octet_der_content
           (default_try_from (is_tag TagOctetString) octet_ber_content) check_primitive.

(** src/asn1_types/octetstring.rs:124-144 *)
Definition tober_octet (d : bytes) : tober :=
  mk_tober (EncPrimitive TagOctetString) Universal false TagOctetString (Definite (blen d)) (Ok (d, blen d)).

(** src/asn1_types/octetstring.rs:146-192 ([&[u8]]: no constructed form). *)
Definition slice_ber_content (h : header) (i : bytes) : res (bytes * bytes) :=
  if h_constructed h then Err ELifetimeError else Ok ([], i).
Definition slice_codec : codec bytes :=
  mk_codec (is_tag TagOctetString) slice_ber_content
           (fun h i => let* _ := assert_primitive h in slice_ber_content h i)
           (default_try_from (is_tag TagOctetString) slice_ber_content) check_primitive.

(** ** BIT STRING

    [BitVec<u8, Msb0>] of the [bitvec] crate: the bytes behind [as_raw_slice], the position of the first
    bit in the first byte, and the number of bits.  Bits of the bytes outside this range are kept. *)
Record bitstring := mk_bits { bs_head : nat; bs_raw : bytes; bs_len : nat }.

(** Bits of a byte, most significant first. *)
Definition bits_of_byte (b : N) : list bool := map (N.testbit b) [7; 6; 5; 4; 3; 2; 1; 0].
Definition bits_of (bs : bytes) : list bool := flat_map bits_of_byte bs.

(** The bits of a bit string ([as_bitslice]); equality of [BitString]s is equality of these. *)
Definition bs_bits (b : bitstring) : list bool := firstn (bs_len b) (skipn (bs_head b) (bits_of (bs_raw b))).

(** [n] bytes from bits, most significant first, missing bits being zero. *)
Definition byte_of_bits (l : list bool) : N :=
  fold_left (fun acc k => 2 * acc + (if nth k l false then 1 else 0)) (seq 0 8) 0.
Fixpoint bytes_of_bits (n : nat) (l : list bool) : bytes :=
  match n with
  | O => []
  | S n => byte_of_bits l :: bytes_of_bits n (skipn 8 l)
  end.

(** Number of bytes touched by [n] bits ([bitvec::mem::elts]). *)
Definition elts (n : nat) : nat := (n + 7) / 8.

(** src/asn1_types/bitstring.rs:26-33 ([BitString::new]). *)
Definition bitstring_new (unused : N) (s : bytes) : res bitstring :=
  if (unused <? 8) && (unused <? 8 * blen s) then Ok (mk_bits 0 s (8 * length s - N.to_nat unused)) else Panic.

(** src/asn1_types/bitstring.rs:77-82 ([From<&BitSlice>]): [BitVec::from_bitslice] keeps the position of
    the first bit in its byte and clears the bits outside the slice. *)
Definition bitstring_from_slice (head : nat) (bits : list bool) : bitstring :=
  mk_bits head (bytes_of_bits (elts (head + length bits)) (repeat false head ++ bits)) (length bits).

(** src/asn1_types/bitstring.rs:178-182 ([BitVec::append]): the bits of [b] overwrite what follows the
    bits of [a]; new bytes are zero. *)
Definition bitstring_append (a b : bitstring) : bitstring :=
  let start := (bs_head a + bs_len a)%nat in
  let stop := (start + length (bs_bits b))%nat in
  mk_bits (bs_head a)
          (bytes_of_bits (elts stop) (firstn start (bits_of (bs_raw a)) ++ bs_bits b ++ skipn stop (bits_of (bs_raw a))))
          (bs_len a + length (bs_bits b)).

(** src/asn1_types/bitstring.rs:6 *)
Definition BITSTRING_MAX_RECURSION : nat := 5.

(** src/asn1_types/bitstring.rs:93-120: primitive content. *)
Definition bitstring_prim (h : header) (i : bytes) : res (bytes * bitstring) :=
  let* (rem, data) := ber_get_content h i in
  match data with
  | [] => Err EInvalidLength
  | ignored :: bs =>
      if ignored <=? 7 then
        if 8 * blen bs <? ignored then Err EInvalidLength
        else Ok (rem, mk_bits 0 bs (8 * length bs - N.to_nat ignored))
      else Err EInvalidValue
  end.

(** src/asn1_types/bitstring.rs:84-126 *)
Definition bitstring_ber_content (h : header) (i : bytes) : res (bytes * bitstring) :=
  if negb (h_constructed h) then bitstring_prim h i
  else parse_ber_segmented (is_tag TagBitString) (mk_bits 0 [] 0) bitstring_append bitstring_prim
         BITSTRING_MAX_RECURSION h i.

(** src/asn1_types/bitstring.rs:128-141 *)
Definition bitstring_der_content (h : header) (i : bytes) : res (bytes * bitstring) :=
  let* _ := assert_primitive h in bitstring_ber_content h i.

(** [u8::trailing_zeros]. *)
Definition trailing_zeros8 (b : N) : N :=
  match position (N.testbit b) [0; 1; 2; 3; 4; 5; 6; 7] with Some n => N.of_nat n | None => 8 end.

(** src/asn1_types/bitstring.rs:143-170 *)
Definition bitstring_check (a : any) : res unit :=
  let* _ := assert_primitive (any_header a) in
  match any_data a with
  | [] => Err EInvalidLength
  | [u] => if u =? 0 then Ok tt else Err EInvalidLength
  | u :: r => if trailing_zeros8 (last r 0) <? u then Err (EDerConstraintFailed DCUnusedBitsNotZero) else Ok tt
  end.

Definition bitstring_codec : codec bitstring :=
  mk_codec (is_tag TagBitString) bitstring_ber_content bitstring_der_content
           (default_try_from (is_tag TagBitString) bitstring_ber_content) bitstring_check.

(** src/asn1_types/bitstring.rs:184-213; [ignored as u8] truncates. *)
Definition tober_bitstring (b : bitstring) : tober :=
  mk_tober (EncPrimitive TagBitString) Universal false TagBitString
           (Definite (1 + (N.of_nat (bs_len b) + 7) / 8))
           (Ok ((8 * blen (bs_raw b) - N.of_nat (bs_len b)) mod 256 :: bs_raw b, 1 + blen (bs_raw b))).

(** src/asn1_types/bitstring.rs:48-53 ([is_set]). *)
Definition bitstring_is_set (b : bitstring) (n : nat) : bool := nth n (bs_bits b) false.
