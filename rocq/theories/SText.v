(** Specification of the character strings: Unicode encoding forms and ASN.1 alphabets. *)
From Coq Require Import Ascii String.
From Verif Require Import Base SHeader SBer SSeg.

(** Unicode scalar values. *)
Definition scalar (c : N) : Prop := c < 0xD800 \/ 0xE000 <= c < 0x110000.
Definition is_text (s : list N) : Prop := Forall scalar s.

(** Texts encoded character by character. *)
Inductive text_units (R : N -> list N -> Prop) : list N -> list N -> Prop :=
| tu_nil : text_units R [] []
| tu_cons c s u us : R c u -> text_units R s us -> text_units R (c :: s) (u ++ us).

(** UTF-8 (Unicode, tables 3-6 and 3-7; X.690 8.23.10). *)
Inductive utf8_char : N -> bytes -> Prop :=
| utf8_1 c : c < 0x80 -> utf8_char c [c]
| utf8_2 c x y : x < 32 -> y < 64 -> c = 64 * x + y -> 0x80 <= c -> utf8_char c [0xC0 + x; 0x80 + y]
| utf8_3 c x y z :
    x < 16 -> y < 64 -> z < 64 -> c = 4096 * x + 64 * y + z -> 0x800 <= c -> scalar c ->
    utf8_char c [0xE0 + x; 0x80 + y; 0x80 + z]
| utf8_4 c w x y z :
    w < 8 -> x < 64 -> y < 64 -> z < 64 -> c = 262144 * w + 4096 * x + 64 * y + z -> 0x10000 <= c ->
    c < 0x110000 -> utf8_char c [0xF0 + w; 0x80 + x; 0x80 + y; 0x80 + z].
Definition utf8 : list N -> bytes -> Prop := text_units utf8_char.

(** UTF-16, big endian (Unicode, table 3-5). *)
Inductive utf16_char : N -> bytes -> Prop :=
| utf16_1 c x y : x < 256 -> y < 256 -> c = 256 * x + y -> scalar c -> utf16_char c [x; y]
| utf16_2 c hi lo x1 y1 x2 y2 :
    hi < 1024 -> lo < 1024 -> c = 0x10000 + 1024 * hi + lo ->
    y1 < 256 -> y2 < 256 -> 0xD800 + hi = 256 * x1 + y1 -> 0xDC00 + lo = 256 * x2 + y2 ->
    utf16_char c [x1; y1; x2; y2].
Definition utf16be : list N -> bytes -> Prop := text_units utf16_char.

(** UTF-16 followed by one byte read as a character. *)
Definition utf16be_odd (s : list N) (d : bytes) : Prop :=
  exists s' d' a, s = s' ++ [a] /\ d = d' ++ [a] /\ utf16be s' d'.

(** UCS-4, big endian (X.690 8.23.7). *)
Definition ucs4_char (c : N) (bs : bytes) : Prop := length bs = 4%nat /\ bytes_ok bs /\ value_be 256 bs = c /\ scalar c.
Definition ucs4be : list N -> bytes -> Prop := text_units ucs4_char.

(** Alphabets (X.680 41.1-41.4); the first three and ISO 646 for the others. *)
Definition letters (s : string) : list N := map N_of_ascii (list_ascii_of_string s).
Definition numeric_alphabet : list N := letters "0123456789 ".
Definition printable_alphabet : list N :=
  letters "ABCDEFGHIJKLMNOPQRSTUVWXYZabcdefghijklmnopqrstuvwxyz0123456789 '()+,-./:=?".
Definition visible_char (c : N) : Prop := 32 <= c <= 126.
Definition ascii_char (c : N) : Prop := c <= 127.

(** The octets of a character string: the content, or those of the OCTET STRING segments. *)
Definition string_octets (k : bool) (content octets : bytes) : Prop :=
  k = false /\ octets = content \/ k = true /\ seg 4 octets_value 5 true content octets.
(** Input that starts with such a string; [R] relates the octets and the text. *)
Definition text_input (tag : N) (R : bytes -> list N -> Prop) (i rem : bytes) (s : list N) : Prop :=
  exists c k content octets,
    starts_with_ber_object c k tag content i rem /\ string_octets k content octets /\ R octets s.
(** The same in primitive form, with a definite length. *)
Definition primitive_text_input (tag : N) (R : bytes -> list N -> Prop) (i rem : bytes) (s : list N) : Prop :=
  exists c content, starts_with_object c false tag content i rem /\ R content s.
