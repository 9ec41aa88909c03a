(** Model of classes, lengths, headers and the header parser. *)
From Verif Require Import Base.

(** src/class.rs:9-18 *)
Inductive class := Universal | Application | ContextSpecific | Private.

(** src/class.rs:14,16,18,20: discriminants ([class as u8]). *)
Definition class_num (c : class) : N :=
  match c with Universal => 0 | Application => 1 | ContextSpecific => 2 | Private => 3 end.

(** src/class.rs:66-79 ([TryFrom<u8>]). *)
Definition class_try_from (n : N) : option class :=
  match n with
  | 0 => Some Universal
  | 1 => Some Application
  | 2 => Some ContextSpecific
  | 3 => Some Private
  | _ => None
  end.

(** [PartialEq] derived for [Class] (src/class.rs:8). *)
Definition class_eqb (a b : class) : bool := class_num a =? class_num b.

(** src/length.rs:8-13 *)
Inductive blength := Definite (n : N) | Indefinite.

(** src/length.rs:18-20 *)
Definition is_null (l : blength) : bool :=
  match l with Definite n => n =? 0 | Indefinite => false end.

(** src/length.rs:42-44 *)
Definition is_definite (l : blength) : bool :=
  match l with Definite _ => true | Indefinite => false end.

(** src/length.rs:71-83.  [usize] addition is unbounded here; the theorems bound the operands. *)
Definition length_add (a b : blength) : blength :=
  match a with
  | Indefinite => Indefinite
  | Definite x => match b with Indefinite => Indefinite | Definite y => Definite (x + y) end
  end.

(** src/length.rs:126-130 ([Sum]). *)
Definition length_sum (ls : list blength) : blength := fold_left length_add ls (Definite 0).

(** src/header.rs:20-37.  [raw_header] is kept as bytes (its span is treated in MSpan.v). *)
Record header := mk_header {
  h_class : class;
  h_constructed : bool;
  h_tag : N;
  h_length : blength;
  h_raw_tag : option bytes;
  h_raw_header : option bytes
}.

(** src/header.rs:41-50 *)
Definition header_new (c : class) (k : bool) (t : N) (l : blength) : header :=
  mk_header c k t l None None.

(** src/tag.rs: tag numbers used by the model. *)
Definition TagEndOfContent : N := 0.
Definition TagBoolean : N := 1.
Definition TagInteger : N := 2.
Definition TagBitString : N := 3.
Definition TagOctetString : N := 4.
Definition TagNull : N := 5.
Definition TagOid : N := 6.
Definition TagObjectDescriptor : N := 7.
Definition TagRealType : N := 9.
Definition TagEnumerated : N := 10.
Definition TagEmbeddedPdv : N := 11.
Definition TagUtf8String : N := 12.
Definition TagRelativeOid : N := 13.
Definition TagSequence : N := 16.
Definition TagSet : N := 17.
Definition TagNumericString : N := 18.
Definition TagPrintableString : N := 19.
Definition TagT61String : N := 20.
Definition TagVideotexString : N := 21.
Definition TagIa5String : N := 22.
Definition TagUtcTime : N := 23.
Definition TagGeneralizedTime : N := 24.
Definition TagGraphicString : N := 25.
Definition TagVisibleString : N := 26.
Definition TagGeneralString : N := 27.
Definition TagUniversalString : N := 28.
Definition TagBmpString : N := 30.

(** src/header.rs:508-533: the loop reading tag octets in high-tag-number form.
    [count] is [tag_byte_count]; a missing byte is an [InvalidTag] error; [c << 7] is a 32-bit
    shift that drops high bits.  Returns (remaining input, tag, tag_byte_count). *)
Fixpoint tag_loop (rem : bytes) (c count : N) : res (bytes * N * N) :=
  match rem with
  | [] => Err EInvalidTag
  | b :: r =>
      if 5 <? count then Err EInvalidTag
      else
        let c' := N.lor (N.shiftl c 7 mod 2 ^ 32) (N.land b 0x7f) in
        if N.land b 0x80 =? 0 then Ok (r, c', count + 1)
        else tag_loop r c' (count + 1)
  end.

(** src/header.rs:585-595 ([bytes_to_u64_g]); [None] is [IntegerTooLarge]. *)
Fixpoint bytes_to_u64_from (u : N) (s : bytes) : option N :=
  match s with
  | [] => Some u
  | c :: s' =>
      if N.land u 0xff00000000000000 =? 0
      then bytes_to_u64_from (N.lor (N.shiftl u 8 mod 2 ^ 64) c) s'
      else None
  end.
Definition bytes_to_u64 (s : bytes) : option N := bytes_to_u64_from 0 s.

(** src/header.rs:538-572: length octets.  [usize::try_from(u64)] always succeeds (64-bit usize). *)
Definition parse_length (constructed : bool) (rem : bytes) : res (bytes * blength) :=
  let* (rem, len_b0) := be_u8 rem in
  if len_b0 =? 0x80 then
    if constructed then Ok (rem, Indefinite) else Err EIndefiniteLengthUnexpected
  else if N.land len_b0 0x80 =? 0 then Ok (rem, Definite len_b0)
  else if len_b0 =? 0xff then Err EInvalidLength
  else
    let* (r, len_bytes) := take (N.land len_b0 0x7f) rem in
    match bytes_to_u64 len_bytes with
    | Some l => Ok (r, Definite l)
    | None => Err EInvalidLength
    end.

(** src/header.rs:482-581 ([parse_header]).  [rem.start() - input.start()] is the number of bytes
    consumed.  The slice index at line 535 is checked explicitly. *)
Definition parse_header (input : bytes) : res (bytes * header) :=
  let* (rem, b0) := be_u8 input in
  match class_try_from (N.shiftr b0 6) with
  | None => Panic
  | Some cls =>
      let constructed := negb (N.land b0 0x20 =? 0) in
      let tag0 := N.land b0 0x1f in
      let* (rem, tag, count) :=
        (if tag0 =? 0x1f then tag_loop rem 0 1 else Ok (rem, tag0, 1)) in
      if blen input <? count then Panic
      else
        let raw_tag := firstn (N.to_nat count) input in
        let* (rem, len) := parse_length constructed rem in
        let raw_header := firstn (length input - length rem) input in
        Ok (rem, mk_header cls constructed tag len (Some raw_tag) (Some raw_header))
  end.

(** src/header.rs:331-333 and 322-326 ([Header::parse_ber], [Header::from_ber]). *)
Definition header_parse_ber (i : bytes) : res (bytes * header) := parse_header i.

(** src/header.rs:351-363 and 378-388 ([Header::parse_der], [Header::from_der]). *)
Definition header_parse_der (i : bytes) : res (bytes * header) :=
  let* (rem, h) := parse_header i in
  if is_definite (h_length h) then Ok (rem, h) else Err (EDerConstraintFailed DCIndefiniteLength).

(** src/header.rs:160-166, 180-192 *)
Definition assert_primitive (h : header) : res unit :=
  if h_constructed h then Err EConstructUnexpected else Ok tt.

(** src/header.rs:196-228 *)
Definition assert_constructed (h : header) : res unit :=
  if h_constructed h then Ok tt else Err EConstructExpected.

(** src/header.rs:148-150, src/class.rs:32-41 *)
Definition assert_class (h : header) (c : class) : res unit :=
  if class_eqb (h_class h) c then Ok tt else Err EUnexpectedClass.

(** src/header.rs:154-156 and src/tag.rs ([Tag::assert_eq]). *)
Definition assert_tag (h : header) (t : N) : res unit :=
  if h_tag h =? t then Ok tt else Err EUnexpectedTag.

(** src/header.rs:253-271 *)
Definition header_assert_definite (h : header) : res unit :=
  if is_definite (h_length h) then Ok tt else Err (EDerConstraintFailed DCIndefiniteLength).

(** src/length.rs:48-62 *)
Definition length_assert_definite (l : blength) : res unit :=
  if is_definite l then Ok tt else Err EIndefiniteLengthUnexpected.

(** [PartialEq] derived for [Length] (src/length.rs:7). *)
Definition blength_eqb (a b : blength) : bool :=
  match a, b with
  | Definite x, Definite y => x =? y
  | Indefinite, Indefinite => true
  | _, _ => false
  end.

Definition bytes_eqb (a b : bytes) : bool := if list_eq_dec N.eq_dec a b then true else false.

Definition opt_bytes_eqb (a b : option bytes) : bool :=
  match a, b with
  | Some x, Some y => bytes_eqb x y
  | None, None => true
  | _, _ => false
  end.

(** [a.as_ref().xor(b.as_ref()).is_none()] *)
Definition xor_is_none {A} (a b : option A) : bool :=
  match a, b with
  | Some _, Some _ | None, None => true
  | _, _ => false
  end.

(** src/header.rs:446-468 ([PartialEq for Header]). *)
Definition header_eqb (a b : header) : bool :=
  class_eqb (h_class a) (h_class b)
  && (h_tag a =? h_tag b)
  && Bool.eqb (h_constructed a) (h_constructed b)
  && (if is_null (h_length a) && is_null (h_length b)
      then blength_eqb (h_length a) (h_length b) else true)
  && (if xor_is_none (h_raw_tag a) (h_raw_tag b)
      then opt_bytes_eqb (h_raw_tag a) (h_raw_tag b) else true).

(** src/header.rs:472-480 ([Hash for Header]): the sequence of values fed to the hasher. *)
Definition header_hash_input (h : header) : class * bool * N * blength * option bytes :=
  (h_class h, h_constructed h, h_tag h, h_length h, h_raw_tag h).

(** src/header.rs:307-319 ([ToStatic]). *)
Definition header_to_static (h : header) : header :=
  mk_header (h_class h) (h_constructed h) (h_tag h) (h_length h) (h_raw_tag h) None.
