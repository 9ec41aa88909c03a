(** Model of the content parsers of the base types with the location of their errors: what MInt, MSeg, MOid, MText, MTime,
    MReal and MCont compute, on an [Input].  MSpan and MKind place these errors at the contents. *)
From Verif Require Import Base MHeader MEncode MBer MInt MSeg MOid MText MTime MReal MCont MSpan MTrace MKind.

(** A build without logging, and the segments of a constructed string in it (src/ber/appendable.rs:18-67). *)
Definition no_log : config := mk_config false false false.
Definition w_segments {T} (g : segments T) (h : sheader) (i : input) : sres (input * T) :=
  snd (k_segmented no_log g (sg_limit g) h i).
(** src/header.rs:180-192, 216-228 ([assert_primitive_input], [assert_constructed_input]). *)
Definition w_primitive (h : sheader) (i : input) : sres unit := at_input i (assert_primitive (sh_fields h)).
Definition w_constructed (h : sheader) (i : input) : sres unit := at_input i (assert_constructed (sh_fields h)).
(** [input.take_split(input.len())] *)
Definition w_all (i : input) : sres (input * input) := in_take_split i (blen (in_data i)).

(** src/asn1_types/boolean.rs:38-54 *)
Definition w_boolean_ber (h : sheader) (i : input) : sres (input * N) :=
  let+ _ := w_primitive h i in
  if blength_eqb (h_length (sh_fields h)) (Definite 1) then s_be_u8 i else SErr i EInvalidLength.
(** src/asn1_types/boolean.rs:56-73: the error is placed at [rem]. *)
Definition w_boolean_der (h : sheader) (i : input) : sres (input * N) :=
  let+ (rem, b) := w_boolean_ber h i in
  if (b =? 0) || (b =? 0xff) then SOk (rem, b) else SErr rem (EDerConstraintFailed DCInvalidBoolean).
(** src/asn1_types/boolean.rs:147-167 *)
Definition w_bool (f : sheader -> input -> sres (input * N)) (h : sheader) (i : input) : sres (input * bool) :=
  let+ (rem, b) := f h i in SOk (rem, to_bool b).
(** src/asn1_types/null.rs:21-56 and 89-109 *)
Definition w_null (h : sheader) (i : input) : sres (input * unit) :=
  let+ _ := w_primitive h i in
  if is_null (h_length (sh_fields h)) then SOk (i, tt) else SErr i EInvalidLength.

(** src/asn1_types/integer.rs:91-131, 199-230, src/asn1_types/enumerated.rs:19-47, src/asn1_types/real.rs:160-187: every
    step has its errors placed at [input]; the rest is [input.take_from(input.len())]. *)
Definition w_number {T} (f : header -> bytes -> res (bytes * T)) (h : sheader) (i : input) : sres (input * T) :=
  let+ (_, v) := at_input i (f (sh_fields h) (in_data i)) in
  let+ rem := in_take_from i (blen (in_data i)) in
  SOk (rem, v).
(** src/asn1_types/real/f64.rs:10-34, src/asn1_types/real/f32.rs:10-34 *)
Definition w_float {T} (convert : real -> T) (h : sheader) (i : input) : sres (input * T) :=
  let+ (rem, r) := w_number real_content h i in SOk (rem, convert r).
(** src/asn1_types/integer.rs:556-583: an empty content is reported at [content]. *)
Definition w_integer_ber (h : sheader) (i : input) : sres (input * bytes) :=
  let+ _ := w_primitive h i in
  let+ (rem, content) := s_der_get_content h i in
  match in_data content with [] => SErr content EInvalidLength | d => SOk (rem, d) end.
(** src/asn1_types/integer.rs:585-598 *)
Definition w_integer_der (h : sheader) (i : input) : sres (input * bytes) :=
  let+ _ := at_input i (check_der_int_input (in_data i)) in w_integer_ber h i.
(** src/asn1_types/oid.rs:46-76 *)
Definition w_oid (h : sheader) (i : input) : sres (input * oid) :=
  let+ _ := w_primitive h i in
  if blen (in_data i) =? 0 then SErr i EInvalidLength
  else let+ (rem, data) := w_all i in SOk (rem, mk_oid (in_data data) false).

(** src/asn1_types/utctime.rs:135-191, src/asn1_types/generalizedtime.rs:176-249: the characters are checked at [input], the
    rest at [data]; [form] is the check of the form, [text] the constraints of DER. *)
Definition w_time (form : sheader -> input -> sres unit) (text : bytes -> res unit) (read : bytes -> res datetime)
    (h : sheader) (i : input) : sres (input * datetime) :=
  let+ _ := form h i in
  if negb (forallb is_visible (in_data i)) then SErr i EStringInvalidCharset
  else
    let+ (rem, data) := w_all i in
    let+ _ := at_input data (text (in_data data)) in
    let+ t := at_input data (read (in_data data)) in
    SOk (rem, t).
(** src/asn1_types/utctime.rs:146-151, src/asn1_types/generalizedtime.rs:187-192 *)
Definition w_supported (h : sheader) (i : input) : sres unit :=
  if h_constructed (sh_fields h) then SErr i EUnsupported else SOk tt.

(** src/asn1_types/octetstring.rs:146-192 *)
Definition w_slice (h : sheader) (i : input) : sres (input * bytes) :=
  if h_constructed (sh_fields h) then SErr i ELifetimeError
  else let+ (rem, data) := w_all i in SOk (rem, in_data data).
(** A DER parser which checks the form, then does as the BER parser (src/asn1_types/octetstring.rs:79-91 and others). *)
Definition w_der {T} (f : sheader -> input -> sres (input * T)) (h : sheader) (i : input) : sres (input * T) :=
  let+ _ := w_primitive h i in f h i.
(** src/asn1_types/octetstring.rs:57-77 *)
Definition w_octets (h : sheader) (i : input) : sres (input * bytes) :=
  if negb (h_constructed (sh_fields h)) then let+ (rem, data) := w_all i in SOk (rem, in_data data)
  else w_segments octets h i.
(** src/asn1_types/bitstring.rs:84-126 *)
Definition w_bits (h : sheader) (i : input) : sres (input * bitstring) :=
  if negb (h_constructed (sh_fields h)) then
    let+ (rem, data) := s_ber_object_content h i MAX_RECURSION in
    match in_data data with
    | [] => SErr data EInvalidLength
    | ignored :: bs =>
        if ignored <=? 7 then
          if 8 * blen bs <? ignored then SErr data EInvalidLength
          else SOk (rem, mk_bits 0 bs (8 * length bs - N.to_nat ignored))
        else SErr data EInvalidValue
    end
  else w_segments bits h i.

(** Text from octets: errors are placed at [rem], what follows them. *)
Definition w_text {T} (read : T -> res (list N)) (r : sres (input * T)) : sres (input * list N) :=
  let+ (rem, data) := r in let+ s := at_input rem (read data) in SOk (rem, s).
(** src/asn1_types/strings.rs:109-147 *)
Definition w_string (k : string_kind) (h : sheader) (i : input) : sres (input * list N) := w_text (text k) (w_octets h i).
(** src/asn1_types/strings/str.rs:9-50, src/asn1_types/strings/string.rs:36-50 *)
Definition utf8_text (d : bytes) : res (list N) :=
  match from_utf8 d with Some s => Ok s | None => Err EStringInvalidCharset end.
Definition w_str (h : sheader) (i : input) : sres (input * list N) := w_text utf8_text (w_slice h i).
Definition w_str_der (h : sheader) (i : input) : sres (input * list N) :=
  let+ _ := w_primitive h i in
  w_text utf8_text (let+ (rem, data) := w_all i in SOk (rem, in_data data)).
(** src/asn1_types/strings/bmpstring.rs:58-89, src/asn1_types/strings/universalstring.rs:58-101 *)
Definition w_wide (h : sheader) (i : input) : sres (input * bytes) :=
  if h_constructed (sh_fields h) then let+ (rem, data) := w_all i in SOk (rem, in_data data)
  else w_segments octets h i.
Definition bmp_text (d : bytes) : res (list N) :=
  match from_utf16 (bmp_units d) with Some s => Ok s | None => Err EStringInvalidCharset end.
Definition universal_text (d : bytes) : res (list N) :=
  if negb (blen d mod 4 =? 0) then Err EStringInvalidCharset
  else match universal_chars d with Some s => Ok s | None => Err EStringInvalidCharset end.
Definition w_bmp (h : sheader) (i : input) : sres (input * list N) := w_text bmp_text (w_wide h i).
Definition w_universal (h : sheader) (i : input) : sres (input * list N) := w_text universal_text (w_wide h i).
(** src/asn1_types/sequence.rs:393-427, src/asn1_types/set.rs:376-410 *)
Definition w_raw (h : sheader) (i : input) : sres (input * bytes) :=
  let+ _ := w_constructed h i in let+ (rem, data) := w_all i in SOk (rem, in_data data).
