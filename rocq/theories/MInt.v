(** Model of INTEGER, the fixed-width integer types, ENUMERATED, BOOLEAN and NULL. *)
From Verif Require Import Base MHeader MEncode MBer.

(** src/asn1_types/integer.rs:77-82 *)
Definition is_highest_bit_set (bs : bytes) : bool :=
  match bs with [] => false | b :: _ => negb (N.land b 0x80 =? 0) end.

(** [Iterator::position]. *)
Fixpoint position {A} (f : A -> bool) (l : list A) : option nat :=
  match l with
  | [] => None
  | x :: r => if f x then Some O else match position f r with Some n => Some (S n) | None => None end
  end.

(** [slice::windows(2)]. *)
Fixpoint windows2 (bs : bytes) : list (N * N) :=
  match bs with
  | a :: ((b :: _) as r) => (a, b) :: windows2 r
  | _ => []
  end.

(** src/asn1_types/integer.rs:13-39 *)
Definition trim_slice (bs : bytes) : bytes :=
  match bs with
  | [] => bs
  | b0 :: _ =>
      if negb (b0 =? 0x00) && negb (b0 =? 0xff) then bs
      else match position (fun b => negb (b =? 0)) bs with
           | None => skipn (length bs - 1) bs
           | Some (S n) => skipn (S n) bs
           | Some O =>
               match position (fun '(a, b) => negb ((a =? 0xff) && (0x80 <=? b))) (windows2 bs) with
               | Some O => bs
               | None => skipn (length bs - 1) bs
               | Some (S n) => skipn (S n) bs
               end
           end
  end.

(** src/asn1_types/integer.rs:43-58.  [w] is the const parameter [N], the number of bytes. *)
Definition decode_array_uint (w : nat) (bs : bytes) : res bytes :=
  if is_highest_bit_set bs then Err EIntegerNegative
  else
    let input := trim_slice bs in
    if (w <? length input)%nat then Err EIntegerTooLarge
    else Ok (repeat 0 (w - length input) ++ input).

(** src/asn1_types/integer.rs:63-73 *)
Definition decode_array_int (w : nat) (bs : bytes) : res bytes :=
  if (w <? length bs)%nat then Err EIntegerTooLarge
  else Ok (repeat 0xff (w - length bs) ++ bs).

(** [T::MAX as u..] for a signed type of [w] bytes. *)
Definition int_max (w : nat) : N := 2 ^ (8 * N.of_nat w - 1) - 1.

(** [u as i..]: reinterpretation of an unsigned value of [w] bytes as two's complement. *)
Definition as_signed (w : nat) (u : N) : Z :=
  if int_max w <? u then (Z.of_N u - 2 ^ (8 * Z.of_nat w))%Z else Z.of_N u.

(** [i as u..] (the bits behind [to_be_bytes]). *)
Definition as_unsigned (w : nat) (v : Z) : N := Z.to_N (v mod 2 ^ (8 * Z.of_nat w)).

(** src/asn1_types/integer.rs:91-114 *)
Definition int_ber_content (w : nat) (h : header) (i : bytes) : res (bytes * Z) :=
  let* _ := assert_primitive h in
  let* u :=
    if is_highest_bit_set i then
      let* ar := decode_array_int w i in Ok (of_be_bytes ar)
    else
      let* ar := decode_array_uint w i in
      let u := of_be_bytes ar in
      if int_max w <? u then Err EIntegerTooLarge else Ok u in
  Ok ([], as_signed w u).

(** src/asn1_types/integer.rs:199-213 *)
Definition uint_ber_content (w : nat) (h : header) (i : bytes) : res (bytes * Z) :=
  let* _ := assert_primitive h in
  let* ar := decode_array_uint w i in
  Ok ([], Z.of_N (of_be_bytes ar)).

(** src/asn1_types/integer.rs:624-634 *)
Definition check_der_int_input (i : bytes) : res unit :=
  match i with
  | [] => Err (EDerConstraintFailed DCIntegerEmpty)
  | [_] => Ok tt
  | a :: b :: _ =>
      if (a =? 0) && (b <? 0x80) then Err (EDerConstraintFailed DCIntegerLeadingZeroes)
      else if (a =? 0xff) && (0x80 <=? b) then Err (EDerConstraintFailed DCIntegerLeadingFF)
      else Ok tt
  end.

(** src/asn1_types/integer.rs:606-622 *)
Definition check_der_int (a : any) : res unit :=
  let* _ := assert_primitive (any_header a) in
  let* _ := length_assert_definite (h_length (any_header a)) in
  check_der_int_input (any_data a).

(** src/asn1_types/integer.rs:120-131 *)
Definition int_der_content (w : nat) (h : header) (i : bytes) : res (bytes * Z) :=
  let* _ := check_der_int_input i in int_ber_content w h i.

(** src/asn1_types/integer.rs:219-230 *)
Definition uint_der_content (w : nat) (h : header) (i : bytes) : res (bytes * Z) :=
  let* _ := check_der_int_input i in uint_ber_content w h i.

(** [DynTagged::accept_tag] of a type with a constant tag (src/traits.rs, blanket [impl DynTagged for T: Tagged]). *)
Definition is_tag (t : N) (x : N) : bool := x =? t.

(** src/asn1_types/integer.rs:84-140: the signed type of [w] bytes (i8: 1, ..., i128: 16, isize: 8). *)
Definition int_codec (w : nat) : codec Z :=
  mk_codec (is_tag TagInteger) (int_ber_content w) (int_der_content w)
           (default_try_from (is_tag TagInteger) (int_ber_content w)) check_der_int.

(** src/asn1_types/integer.rs:192-239: the unsigned type of [w] bytes. *)
Definition uint_codec (w : nat) : codec Z :=
  mk_codec (is_tag TagInteger) (uint_ber_content w) (uint_der_content w)
           (default_try_from (is_tag TagInteger) (uint_ber_content w)) check_der_int.

(** src/asn1_types/integer.rs:424-431: skip a zero byte unless the next one has its high bit set. *)
Fixpoint strip_zeroes (b : bytes) : bytes :=
  match b with
  | b0 :: ((b1 :: _) as r) => if (b0 =? 0) && (b1 <? 0x80) then strip_zeroes r else b
  | _ => b
  end.

(** src/asn1_types/integer.rs:411-438 ([Integer::from_const_array]).  An empty array has a clear high
    bit and makes [b.len() - 1] overflow. *)
Definition from_const_array (b : bytes) : res bytes :=
  if is_highest_bit_set b then Ok (0 :: b)
  else match b with [] => Panic | _ => Ok (strip_zeroes b) end.

(** src/asn1_types/integer.rs:443-450: skip a 0xff byte unless the next one has its high bit clear. *)
Fixpoint strip_ones (b : bytes) : bytes :=
  match b with
  | b0 :: ((b1 :: _) as r) => if (b0 =? 0xff) && (0x80 <=? b1) then strip_ones r else b
  | _ => b
  end.

(** src/asn1_types/integer.rs:440-461 ([from_const_array_negative]); [idx == b.len()] never holds. *)
Definition from_const_array_negative (b : bytes) : res bytes :=
  match b with [] => Panic | _ => Ok (strip_ones b) end.

(** src/asn1_types/integer.rs:487-499 ([Integer::from_i8], ..., [From<i8>]). *)
Definition integer_from_int (w : nat) (v : Z) : res bytes :=
  if (0 <=? v)%Z then from_const_array (be_bytes w (as_unsigned w v))
  else from_const_array_negative (be_bytes w (as_unsigned w v)).

(** src/asn1_types/integer.rs:504-513 ([Integer::from_u8], ..., [From<u8>]). *)
Definition integer_from_uint (w : nat) (v : Z) : res bytes :=
  from_const_array (be_bytes w (as_unsigned w v)).

(** Writing the data of an [Integer]; a panic while building it is a panic of the writer. *)
Definition write_integer_data (d : res bytes) : wres := let* d := d in Ok (d, blen d).
Definition integer_data_len (d : res bytes) : blength :=
  Definite (match d with Ok d => blen d | _ => 0 end).

(** src/asn1_types/integer.rs:146-188 ([ToBer]/[ToDer], signed types). *)
Definition tober_int (w : nat) (v : Z) : tober :=
  mk_tober (EncPrimitive TagInteger) Universal false TagInteger
           (integer_data_len (integer_from_int w v)) (write_integer_data (integer_from_int w v)).

(** src/asn1_types/integer.rs:245-286 ([ToBer]/[ToDer], unsigned types). *)
Definition tober_uint (w : nat) (v : Z) : tober :=
  mk_tober (EncPrimitive TagInteger) Universal false TagInteger
           (integer_data_len (integer_from_uint w v)) (write_integer_data (integer_from_uint w v)).

(** src/asn1_types/integer.rs:556-583 ([Integer::from_ber_content]); an [Integer] is its bytes. *)
Definition integer_ber_content (h : header) (i : bytes) : res (bytes * bytes) :=
  let* _ := assert_primitive h in
  let* (rem, content) := der_get_content h i in
  match content with [] => Err EInvalidLength | _ => Ok (rem, content) end.

(** src/asn1_types/integer.rs:585-598 *)
Definition integer_der_content (h : header) (i : bytes) : res (bytes * bytes) :=
  let* _ := check_der_int_input i in integer_ber_content h i.

Definition integer_codec : codec bytes :=
  mk_codec (is_tag TagInteger) integer_ber_content integer_der_content
           (default_try_from (is_tag TagInteger) integer_ber_content) check_der_int.

(** src/asn1_types/integer.rs:646-663 *)
Definition tober_integer (d : bytes) : tober :=
  mk_tober (EncPrimitive TagInteger) Universal false TagInteger (Definite (blen d)) (Ok (d, blen d)).

(** src/asn1_types/any.rs:41-56 ([Any::from_tag_and_data]). *)
Definition any_from_tag_and_data (t : N) (data : bytes) : any :=
  mk_any (mk_header Universal ((t =? TagSequence) || (t =? TagSet)) t (Definite (blen data)) None None)
         data.

(** src/asn1_types/integer.rs:374-378 ([Integer::any]) and 479-485 ([as_i8], ..., [TryFrom<Integer>]). *)
Definition integer_as {T} (p : codec T) (d : bytes) : res T :=
  try_from_any p (any_from_tag_and_data TagInteger d).

(** src/asn1_types/integer.rs:400-408 ([as_biguint]); [BigUint::from_bytes_be] is the base-256 value. *)
Definition as_biguint (d : bytes) : res N :=
  if is_highest_bit_set d then Err EIntegerNegative else Ok (of_be_bytes d).

(** impl/src/lib.rs:113-126 and src/asn1_types/integer.rs:684-697 ([int!(n)]): data of the [Integer]. *)
Fixpoint skip_while0 (b : bytes) : bytes :=
  match b with
  | x :: r => if x =? 0 then skip_while0 r else b
  | [] => []
  end.
Definition int_macro (n : N) : bytes := skip_while0 (be_bytes 8 n).

(** src/asn1_types/enumerated.rs:19-32 *)
Definition enum_ber_content (h : header) (i : bytes) : res (bytes * Z) :=
  let* _ := assert_primitive h in uint_ber_content 4 h i.

(** src/asn1_types/enumerated.rs:34-47 *)
Definition enum_der_content (h : header) (i : bytes) : res (bytes * Z) :=
  let* _ := assert_primitive h in uint_der_content 4 h i.

(** src/asn1_types/enumerated.rs:17-60 *)
Definition enum_codec : codec Z :=
  mk_codec (is_tag TagEnumerated) enum_ber_content enum_der_content
           (default_try_from (is_tag TagEnumerated) enum_ber_content)
           (fun a => length_assert_definite (h_length (any_header a))).

(** src/asn1_types/enumerated.rs:66-85 *)
Definition tober_enum (v : Z) : tober :=
  mk_tober (EncPrimitive TagEnumerated) Universal false TagEnumerated
           (integer_data_len (integer_from_uint 4 v)) (write_integer_data (integer_from_uint 4 v)).

(** src/asn1_types/boolean.rs:38-54 ([Boolean]; the value is its octet). *)
Definition boolean_ber_content (h : header) (i : bytes) : res (bytes * N) :=
  let* _ := assert_primitive h in
  if blength_eqb (h_length h) (Definite 1) then be_u8 i else Err EInvalidLength.

(** src/asn1_types/boolean.rs:56-73 *)
Definition boolean_der_content (h : header) (i : bytes) : res (bytes * N) :=
  let* (rem, b) := boolean_ber_content h i in
  if (b =? 0) || (b =? 0xff) then Ok (rem, b) else Err (EDerConstraintFailed DCInvalidBoolean).

(** src/asn1_types/boolean.rs:75-84 and 136-145: the index [0] panics on empty data. *)
Definition boolean_check (a : any) : res unit :=
  match any_data a with
  | [] => Panic
  | c :: _ => if (c =? 0) || (c =? 0xff) then Ok tt else Err (EDerConstraintFailed DCInvalidBoolean)
  end.

(** src/asn1_types/boolean.rs:36-90 *)
Definition boolean_codec : codec N :=
  mk_codec (is_tag TagBoolean) boolean_ber_content boolean_der_content
           (default_try_from (is_tag TagBoolean) boolean_ber_content) boolean_check.

(** src/asn1_types/boolean.rs:96-111 and 113-130 ([ToBer] writes the octet, [ToDer] 0 or 0xff). *)
Definition tober_boolean (v : N) : tober :=
  mk_tober (EncPrimitive TagBoolean) Universal false TagBoolean (Definite 1) (Ok ([v], 1)).
Definition toder_boolean (v : N) : tober :=
  mk_tober (EncPrimitive TagBoolean) Universal false TagBoolean (Definite 1)
           (Ok ([if v =? 0 then 0 else 0xff], 1)).

(** src/asn1_types/boolean.rs:30-33 ([Boolean::bool]). *)
Definition to_bool (v : N) : bool := negb (v =? 0).

(** src/asn1_types/boolean.rs:134-173 ([bool]). *)
Definition map_snd {A B} (f : A -> B) (r : res (bytes * A)) : res (bytes * B) :=
  let* (rem, x) := r in Ok (rem, f x).
Definition bool_codec : codec bool :=
  mk_codec (is_tag TagBoolean) (fun h i => map_snd to_bool (boolean_ber_content h i))
           (fun h i => map_snd to_bool (boolean_der_content h i))
           (default_try_from (is_tag TagBoolean) (fun h i => map_snd to_bool (boolean_ber_content h i)))
           boolean_check.

(** src/asn1_types/boolean.rs:179-214 *)
Definition tober_bool (v : bool) : tober :=
  mk_tober (EncPrimitive TagBoolean) Universal false TagBoolean (Definite 1)
           (Ok ([if v then 0xff else 0], 1)).

(** src/asn1_types/null.rs:21-56 ([Null]) and 89-123 ([()]), both modelled by [unit]. *)
Definition null_ber_content (h : header) (i : bytes) : res (bytes * unit) :=
  let* _ := assert_primitive h in
  if is_null (h_length h) then Ok (i, tt) else Err EInvalidLength.
Definition null_codec : codec unit :=
  mk_codec (is_tag TagNull) null_ber_content null_ber_content
           (default_try_from (is_tag TagNull) null_ber_content) (fun _ => Ok tt).

(** src/asn1_types/null.rs:68-84, 129-145 *)
Definition tober_null : tober :=
  mk_tober (EncPrimitive TagNull) Universal false TagNull (Definite 0) (Ok ([], 0)).
