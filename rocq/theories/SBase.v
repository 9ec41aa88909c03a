(** Specification of the encodings of the primitive types (X.690 8.2 to 8.8, 8.19, 8.23), as [syntax]es. *)
From Verif Require Import Base MHeader SHeader MSeg MOid MText PEncode SInt SSeg SText SCont MTime STime.

(** A universal type of constant form: values, and their contents octets. *)
Definition universal_syntax {T} (k : bool) (tag : N) (valid : T -> Prop) (content : T -> bytes -> Prop) : syntax T :=
  mk_syntax valid (fun _ => (Universal, k, tag)) (fun v cb => valid v /\ content v cb).

(** BOOLEAN, NULL (8.2, 11.1, 8.8) *)
Definition bool_syntax : syntax bool :=
  universal_syntax false 1 (fun _ => True) (fun (b : bool) cb => cb = [if b then 255 else 0]).
Definition null_syntax : syntax unit := universal_syntax false 5 (fun _ => True) (fun _ cb => cb = []).

(** INTEGER and ENUMERATED (8.3, 8.4): the shortest two's complement form. *)
Definition shortest_form (v : Z) (cb : bytes) : Prop := bytes_ok cb /\ shortest cb /\ twos cb = v.
Definition int_syntax (w : nat) : syntax Z := universal_syntax false 2 (in_signed w) shortest_form.
Definition uint_syntax (w : nat) : syntax Z := universal_syntax false 2 (in_unsigned w) shortest_form.
Definition enum_syntax : syntax Z := universal_syntax false 10 (in_unsigned 4) shortest_form.

(** INTEGER given by its contents octets. *)
Definition integer_syntax : syntax bytes :=
  universal_syntax false 2 (fun d => bytes_ok d /\ shortest d) (fun d cb => cb = d).

(** OCTET STRING (8.7), primitive. *)
Definition octet_syntax : syntax bytes := universal_syntax false 4 bytes_ok (fun d cb => cb = d).

(** BIT STRING (8.6, 11.2.1): the number of unused bits, then the bits, padded with zeros.  A value is
    [canonical] if it is stored from the first bit of its first byte, unused bits being zero. *)
Definition padded_bits (bits : list bool) (cb : bytes) : Prop :=
  exists unused bs pad, cb = unused :: bs /\ bytes_ok bs /\ bytes_bits bs (bits ++ pad) /\ blen pad = unused
                        /\ unused <= 7 /\ Forall (fun b => b = false) pad.
Definition canonical_bits (b : bitstring) : Prop :=
  bs_head b = 0%nat /\ bytes_ok (bs_raw b)
  /\ exists bits pad, bytes_bits (bs_raw b) (bits ++ pad) /\ length bits = bs_len b /\ (length pad <= 7)%nat
                      /\ Forall (fun b => b = false) pad.
Definition holds_bits (b : bitstring) (bits : list bool) : Prop :=
  exists before after, bytes_bits (bs_raw b) (before ++ bits ++ after) /\ length before = bs_head b /\ length bits = bs_len b.
Definition bitstring_syntax : syntax bitstring :=
  universal_syntax false 3 canonical_bits (fun b cb => exists bits, holds_bits b bits /\ padded_bits bits cb).

(** OBJECT IDENTIFIER (8.19) given by its contents octets. *)
Definition oid_syntax : syntax oid :=
  universal_syntax false 6 (fun o => oid_relative o = false /\ oid_asn1 o <> [] /\ bytes_ok (oid_asn1 o))
    (fun o cb => cb = oid_asn1 o).

(** Character strings (8.23): ASCII based types over their alphabet, UTF-8, UTF-16 and UCS-4. *)
Definition text_syntax (tag : N) (alphabet : N -> Prop) : syntax (list N) :=
  universal_syntax false tag (Forall alphabet) utf8.
Definition bmp_syntax : syntax (list N) :=
  universal_syntax false 30 (fun s => is_text s /\ s <> []) utf16be.
Definition universal_string_syntax : syntax (list N) :=
  universal_syntax false 28 (fun s => Forall ascii_char s /\ s <> []) ucs4be.

(** SEQUENCE and SET given by their contents octets. *)
Definition raw_syntax (tag : N) : syntax bytes := universal_syntax true tag bytes_ok (fun d cb => cb = d).

(** UTCTime and GeneralizedTime (11.8, 11.7 but for trailing zeros of the fraction), in UTC. *)
Definition utc_syntax : syntax datetime :=
  universal_syntax false 23
    (fun t => dt_year t < 100 /\ value_ranges t /\ dt_millisecond t = None /\ dt_tz t = TzZ)
    (fun t cb => utc_canonical (written_as t None) cb).
Definition gen_syntax : syntax datetime :=
  universal_syntax false 24
    (fun t => dt_year t < 10000 /\ value_ranges t /\ stable_ms (dt_millisecond t) /\ dt_tz t = TzZ)
    (fun t cb => exists frac, shown_fraction (dt_millisecond t) frac /\ gen_text_of (written_as t frac) cb /\ ~ In 44 cb).
