(** Model of the character string types.

    A Rust [str]/[String] is modelled as the list of its characters ([char]s, Unicode scalar values); the
    functions of [core]/[alloc] used by the code ([str::from_utf8], [str::as_bytes], [str::len],
    [str::encode_utf16], [String::from_utf16], [char::from_u32]) are written out here from their
    documentation and source. *)
From Verif Require Import Base MHeader MEncode MBer MInt MSeg.

(** ** [core::str] *)

(** [char::encode_utf8] (library/core/src/char/methods.rs, [encode_utf8_raw]). *)
Definition char_bytes (c : N) : bytes :=
  if c <? 0x80 then [c]
  else if c <? 0x800 then
    [N.lor (N.land (N.shiftr c 6) 0x1F) 0xC0; N.lor (N.land c 0x3F) 0x80]
  else if c <? 0x10000 then
    [N.lor (N.land (N.shiftr c 12) 0x0F) 0xE0; N.lor (N.land (N.shiftr c 6) 0x3F) 0x80;
     N.lor (N.land c 0x3F) 0x80]
  else
    [N.lor (N.land (N.shiftr c 18) 0x07) 0xF0; N.lor (N.land (N.shiftr c 12) 0x3F) 0x80;
     N.lor (N.land (N.shiftr c 6) 0x3F) 0x80; N.lor (N.land c 0x3F) 0x80].
(** [str::as_bytes] *)
Definition str_bytes (s : list N) : bytes := flat_map char_bytes s.

(** Continuation bytes. *)
Definition is_cont (b : N) : bool := (0x80 <=? b) && (b <=? 0xBF).
Definition between (lo hi b : N) : bool := (lo <=? b) && (b <=? hi).
(** [run_utf8_validation] (library/core/src/str/validations.rs): the ranges of the second byte of
    sequences of three and four bytes. *)
Definition second_of_3 (first b : N) : bool :=
  (first =? 0xE0) && between 0xA0 0xBF b
  || between 0xE1 0xEC first && is_cont b
  || (first =? 0xED) && between 0x80 0x9F b
  || between 0xEE 0xEF first && is_cont b.
Definition second_of_4 (first b : N) : bool :=
  (first =? 0xF0) && between 0x90 0xBF b
  || between 0xF1 0xF3 first && is_cont b
  || (first =? 0xF4) && between 0x80 0x8F b.
(** [str::from_utf8], with the characters ([next_code_point]) of a valid string. *)
Fixpoint from_utf8_loop (fuel : nat) (bs : bytes) : option (list N) :=
  match fuel with
  | O => None
  | S f =>
      let more n (c : N) :=
        match from_utf8_loop f (skipn n bs) with Some s => Some (c :: s) | None => None end in
      match bs with
      | [] => Some []
      | b :: r =>
          if b <? 0x80 then more 1%nat b
          else if between 0xC2 0xDF b then
            match r with
            | b2 :: _ => if is_cont b2 then more 2%nat (N.lor (N.shiftl (N.land b 0x1F) 6) (N.land b2 0x3F)) else None
            | _ => None
            end
          else if between 0xE0 0xEF b then
            match r with
            | b2 :: b3 :: _ =>
                if second_of_3 b b2 && is_cont b3 then
                  more 3%nat (N.lor (N.shiftl (N.land b 0x0F) 12)
                         (N.lor (N.shiftl (N.land b2 0x3F) 6) (N.land b3 0x3F)))
                else None
            | _ => None
            end
          else if between 0xF0 0xF4 b then
            match r with
            | b2 :: b3 :: b4 :: _ =>
                if second_of_4 b b2 && is_cont b3 && is_cont b4 then
                  more 4%nat (N.lor (N.shiftl (N.land b 0x07) 18)
                         (N.lor (N.shiftl (N.land b2 0x3F) 12)
                            (N.lor (N.shiftl (N.land b3 0x3F) 6) (N.land b4 0x3F))))
                else None
            | _ => None
            end
          else None
      end
  end.
Definition from_utf8 (bs : bytes) : option (list N) := from_utf8_loop (S (length bs)) bs.

(** [char::from_u32]. *)
Definition char_from_u32 (c : N) : option N :=
  if (between 0xD800 0xDFFF c) || (0x110000 <=? c) then None else Some c.

(** [str::encode_utf16]. *)
Definition char_utf16 (c : N) : list N :=
  if c <? 0x10000 then [c]
  else let c := c - 0x10000 in [N.lor 0xD800 (N.shiftr c 10); N.lor 0xDC00 (N.land c 0x3FF)].
Definition encode_utf16 (s : list N) : list N := flat_map char_utf16 s.

(** [String::from_utf16], through [char::decode_utf16] (library/core/src/char/decode.rs). *)
Fixpoint from_utf16 (us : list N) : option (list N) :=
  match us with
  | [] => Some []
  | u :: r =>
      if negb (N.land u 0xF800 =? 0xD800) then
        match from_utf16 r with Some s => Some (u :: s) | None => None end
      else if 0xDC00 <=? u then None
      else match r with
           | [] => None
           | u2 :: r2 =>
               if (u2 <? 0xDC00) || (0xDFFF <? u2) then None
               else match from_utf16 r2 with
                    | Some s => Some (N.lor (N.shiftl (N.land u 0x3FF) 10) (N.land u2 0x3FF) + 0x10000 :: s)
                    | None => None
                    end
           end
  end.

(** ** Restricted strings: the [asn1_string!] macro *)

(** [test_valid_charset] of the types. *)
Inductive string_kind :=
| Numeric | Printable | Ia5 | General | Graphic | ObjDescriptor | Teletex | Videotex | Visible | Utf8.

Definition kind_tag (k : string_kind) : N :=
  match k with
  | Numeric => TagNumericString | Printable => TagPrintableString | Ia5 => TagIa5String
  | General => TagGeneralString | Graphic => TagGraphicString | ObjDescriptor => TagObjectDescriptor
  | Teletex => TagT61String | Videotex => TagVideotexString | Visible => TagVisibleString
  | Utf8 => TagUtf8String
  end.

(** src/asn1_types/strings/numericstring.rs:11-13 *)
Definition is_numeric (b : N) : bool := between 48 57 b || (b =? 32).
(** src/asn1_types/strings/printablestring.rs:12-29 *)
Definition is_printable (b : N) : bool :=
  between 97 122 b || between 65 90 b || between 48 57 b || (b =? 32) || (b =? 39) || (b =? 40) || (b =? 41)
  || (b =? 43) || (b =? 44) || (b =? 45) || (b =? 46) || (b =? 47) || (b =? 58) || (b =? 61) || (b =? 63).
(** [u8::is_ascii]: ia5string.rs:10, generalstring.rs:10, graphicstring.rs:10, object_descriptor.rs:13 *)
Definition is_ascii (b : N) : bool := b <? 128.
(** src/asn1_types/strings/visiblestring.rs:11-13, teletexstring.rs:11-13, videotexstring.rs:11-14 *)
Definition is_visible (b : N) : bool := (0x20 <=? b) && (b <=? 0x7f).

Definition test_valid_charset (k : string_kind) (i : bytes) : res unit :=
  let all p := if forallb p i then Ok tt else Err EStringInvalidCharset in
  match k with
  | Numeric => all is_numeric
  | Printable => all is_printable
  | Ia5 | General | Graphic | ObjDescriptor => all is_ascii
  | Teletex | Videotex | Visible => all is_visible
  | Utf8 => match from_utf8 i with Some _ => Ok tt | None => Err EStringInvalidCharset end (* utf8string.rs:9-14 *)
  end.

(** src/asn1_types/strings.rs:106-147.  Both forms of [Cow] give the same text. *)
Definition string_ber_content (k : string_kind) (h : header) (i : bytes) : res (bytes * list N) :=
  let* (rem, data) := if negb (h_constructed h) then Ok ([], i) else octet_segmented h i in
  let* _ := test_valid_charset k data in
  match from_utf8 data with
  | Some s => Ok (rem, s)
  | None => Err EStringInvalidCharset
  end.
(** src/asn1_types/strings.rs:150-161 *)
Definition string_der_content (k : string_kind) (h : header) (i : bytes) : res (bytes * list N) :=
  let* _ := assert_primitive h in string_ber_content k h i.
(** src/asn1_types/strings.rs:163-173 and 104 ([impl_tryfrom_any!]) *)
Definition string_codec (k : string_kind) : codec (list N) :=
  mk_codec (is_tag (kind_tag k)) (string_ber_content k) (string_der_content k)
           (default_try_from (is_tag (kind_tag k)) (string_ber_content k)) check_primitive.
(** src/asn1_types/strings.rs:179-215 *)
Definition tober_string (k : string_kind) (s : list N) : tober :=
  mk_tober (EncPrimitive (kind_tag k)) Universal false (kind_tag k)
           (Definite (blen (str_bytes s))) (Ok (str_bytes s, blen (str_bytes s))).

(** ** [&str] and [String] *)

(** src/asn1_types/strings/str.rs:6-60 *)
Definition str_ber_content (h : header) (i : bytes) : res (bytes * list N) :=
  if h_constructed h then Err ELifetimeError
  else match from_utf8 i with Some s => Ok ([], s) | None => Err EStringInvalidCharset end.
Definition str_der_content (h : header) (i : bytes) : res (bytes * list N) :=
  let* _ := assert_primitive h in
  match from_utf8 i with Some s => Ok ([], s) | None => Err EStringInvalidCharset end.
Definition str_codec : codec (list N) :=
  mk_codec (is_tag TagUtf8String) str_ber_content str_der_content
           (default_try_from (is_tag TagUtf8String) str_ber_content) check_primitive.
(** src/asn1_types/strings/string.rs:8-50 *)
Definition ostring_codec : codec (list N) :=
  mk_codec (is_tag TagUtf8String) (string_ber_content Utf8) str_der_content
           (default_try_from (is_tag TagUtf8String) (string_ber_content Utf8)) check_primitive.
(** src/asn1_types/strings/str.rs:72-89, string.rs:62-79 *)
Definition tober_str (s : list N) : tober :=
  mk_tober (EncPrimitive TagUtf8String) Universal false TagUtf8String
           (Definite (blen (str_bytes s))) (Ok (str_bytes s, blen (str_bytes s))).

(** ** BMPString *)

(** src/asn1_types/strings/bmpstring.rs:74-82: units of two bytes; a single last byte is a unit. *)
Fixpoint bmp_units (bs : bytes) : list N :=
  match bs with
  | [] => []
  | [a] => [a]
  | a :: b :: r => N.lor (N.shiftl a 8) b :: bmp_units r
  end.
(** src/asn1_types/strings/bmpstring.rs:58-89 *)
Definition wide_data (h : header) (i : bytes) : res (bytes * bytes) :=
  if h_constructed h then Ok ([], i) else octet_segmented h i.
Definition bmp_ber_content (h : header) (i : bytes) : res (bytes * list N) :=
  let* (rem, data) := wide_data h i in
  match from_utf16 (bmp_units data) with
  | Some s => Ok (rem, s)
  | None => Err EStringInvalidCharset
  end.
(** src/asn1_types/strings/bmpstring.rs:92-111 *)
Definition bmp_codec : codec (list N) :=
  mk_codec (is_tag TagBmpString) bmp_ber_content
           (fun h i => let* _ := assert_primitive h in bmp_ber_content h i)
           (default_try_from (is_tag TagBmpString) bmp_ber_content) check_primitive.
(** src/asn1_types/strings/bmpstring.rs:119-132.  Units are decoded by [char::decode_utf16] as in
    [from_utf16]. *)
Definition bmp_test_valid_charset (i : bytes) : res unit :=
  if negb (blen i mod 2 =? 0) then Err EStringInvalidCharset
  else match from_utf16 (bmp_units i) with Some _ => Ok tt | None => Err EStringInvalidCharset end.
(** src/asn1_types/strings/bmpstring.rs:138-160 *)
Definition bmp_bytes (s : list N) : bytes := flat_map (fun u => [N.shiftr u 8; N.land u 0xff]) (encode_utf16 s).
Definition tober_bmp (s : list N) : tober :=
  mk_tober (EncPrimitive TagBmpString) Universal false TagBmpString
           (Definite (blen (encode_utf16 s) * 2)) (Ok (bmp_bytes s, blen (bmp_bytes s))).

(** ** UniversalString *)

(** src/asn1_types/strings/universalstring.rs:84-95: units of four bytes, the length being a multiple of four
    ([chunks(4)] otherwise ends with a shorter chunk, here [None]). *)
Fixpoint universal_chars (bs : bytes) : option (list N) :=
  match bs with
  | [] => Some []
  | a :: b :: c :: d :: r =>
      match char_from_u32 (N.lor (N.lor (N.lor (N.shiftl a 24) (N.shiftl b 16)) (N.shiftl c 8)) d) with
      | Some x => match universal_chars r with Some s => Some (x :: s) | None => None end
      | None => None
      end
  | _ => None
  end.
(** src/asn1_types/strings/universalstring.rs:58-101 *)
Definition universal_ber_content (h : header) (i : bytes) : res (bytes * list N) :=
  let* (rem, data) := wide_data h i in
  if negb (blen data mod 4 =? 0) then Err EStringInvalidCharset
  else match universal_chars data with
       | Some s => Ok (rem, s)
       | None => Err EStringInvalidCharset
       end.
(** src/asn1_types/strings/universalstring.rs:104-123 *)
Definition universal_codec : codec (list N) :=
  mk_codec (is_tag TagUniversalString) universal_ber_content
           (fun h i => let* _ := assert_primitive h in universal_ber_content h i)
           (default_try_from (is_tag TagUniversalString) universal_ber_content) check_primitive.
(** [u32::to_be_bytes] *)
Definition be32 (c : N) : bytes :=
  [N.shiftr c 24 mod 256; N.shiftr c 16 mod 256; N.shiftr c 8 mod 256; c mod 256].
(** src/asn1_types/strings/universalstring.rs:135-154: [self.data.len()] is the number of UTF-8 bytes. *)
Definition universal_bytes (s : list N) : bytes := flat_map be32 s.
Definition tober_universal (s : list N) : tober :=
  mk_tober (EncPrimitive TagUniversalString) Universal false TagUniversalString
           (Definite (blen (str_bytes s) * 4)) (Ok (universal_bytes s, blen (str_bytes s) * 4)).

(** ** [Any::as_any_str], [Any::as_any_string] *)

(** src/asn1_types/any.rs:419-430: the tags read as UTF-8 *)
Definition any_str_tag (t : N) : bool :=
  existsb (N.eqb t) [TagGeneralString; TagGraphicString; TagIa5String; TagNumericString; TagPrintableString;
                     TagT61String; TagUtf8String; TagVideotexString; TagVisibleString].
(** src/asn1_types/any.rs:418-435 *)
Definition as_any_str (a : any) : res (list N) :=
  if any_str_tag (h_tag (any_header a)) then
    match from_utf8 (any_data a) with Some s => Ok s | None => Err EStringInvalidCharset end
  else Err EBerTypeError.
(** src/asn1_types/any.rs:440-464 *)
Definition as_any_string (a : any) : res (list N) :=
  if any_str_tag (h_tag (any_header a)) then
    match from_utf8 (any_data a) with Some s => Ok s | None => Err EStringInvalidCharset end
  else if h_tag (any_header a) =? TagBmpString then try_from_any bmp_codec a
  else if h_tag (any_header a) =? TagUniversalString then try_from_any universal_codec a
  else Err EBerTypeError.
