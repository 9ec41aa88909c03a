(** Model of writing to a target which may fail ([std::io::Write]): the writers of MEncode and of the types, with each call of
    [write_all] they make.

    No writer reads from its target or goes on after a failed call, so that what it does is given by the slices it writes one after the
    other ([fst]) and by its result once all of them are written ([snd]).  Simplified: [write!] of the times makes one call for each
    argument. *)
From Coq Require Import SpecFloat.
From Verif Require Import Base MHeader MEncode MBer MInt MSeg MOid MText MTime MReal MF32 MCont MRef MDerive.

Definition act := (list bytes * res N)%type.
(** [target.write_all(b)?; Ok(n)] *)
Definition put (b : bytes) (n : N) : act := ([b], Ok n).
Definition stop (r : res N) : act := ([], r).
(** [a? + b?] *)
Definition andthen (a b : act) : act :=
  match snd a with
  | Ok n => (fst a ++ fst b, let* m := snd b in Ok (n + m))
  | e => (fst a, e)
  end.

(** ** Targets *)

(** [Write::write_all]: the target after the call, and whether the call succeeded. *)
Definition target (S : Type) := S -> bytes -> S * bool.
Fixpoint write_slices {S} (t : target S) (s : S) (bs : list bytes) : S * bool :=
  match bs with
  | [] => (s, true)
  | b :: bs => match t s b with
               | (s, true) => write_slices t s bs
               | (s, false) => (s, false)
               end
  end.
(** The result of a writer, or the error of the target. *)
Inductive outcome := Done (r : res N) | Failed.
Definition run {S} (t : target S) (s : S) (a : act) : S * outcome :=
  match write_slices t s (fst a) with
  | (s, true) => (s, Done (snd a))
  | (s, false) => (s, Failed)
  end.

(** Targets of the standard library: [Vec<u8>], [io::Sink], [&mut [u8]] (what is written so far and the room left; what fits is
    copied before the call fails). *)
Definition vec_target : target bytes := fun s b => (s ++ b, true).
Definition sink_target : target unit := fun s _ => (s, true).
Definition slice_target : target (bytes * N) := fun s b =>
  if blen b <=? snd s then ((fst s ++ b, snd s - blen b), true)
  else ((fst s ++ firstn (N.to_nat (snd s)) b, 0), false).

(** ** src/to_ber *)

(** src/to_ber/encoder.rs:28-80 *)
Definition a_write_tag_generic (c : class) (constructed : bool) (tag : N) : act :=
  let cs := if constructed then 0x20 else 0 in
  if tag <? 31 then put [N.lor (N.lor (N.shiftl (class_num c) 6) cs) tag] 1
  else
    let b0 := N.lor (N.lor (N.shiftl (class_num c) 6) cs) 0x1f in
    andthen (put [b0] 1)
            (match write_tag_loop 7 (N.shiftr tag 7) [N.land tag 0x7f] with
             | Ok buf => put buf (blen buf)
             | Err e => stop (Err e)
             | Incomplete n => stop (Incomplete n)
             | Panic => stop Panic
             end).
(** src/to_ber/encoder.rs:83-119 *)
Definition a_write_length (l : blength) : act :=
  match l with
  | Indefinite => put [0x80] 1
  | Definite n =>
      if n <=? 127 then put [n] 1
      else match skip_zeroes (be_bytes 8 n) with
           | Ok b => andthen (put [N.lor 0x80 (blen b)] 1) (put b (blen b))
           | Err e => stop (Err e)
           | Incomplete n => stop (Incomplete n)
           | Panic => stop Panic
           end
  end.
(** src/to_ber/primitive.rs:28-36, constructed.rs:27-35, constructed_indefinite.rs:29-37, encoder.rs:15-23 *)
Definition a_write_tag_info (e : encoder) (c : class) (k : bool) (t : N) : act :=
  match e with
  | EncPrimitive tag => a_write_tag_generic Universal false tag
  | EncConstructed | EncConstructedIndefinite => a_write_tag_generic c true t
  | EncGeneric => a_write_tag_generic c k t
  end.

(** What a type provides to the writers: src/to_ber.rs:23-44, src/to_der.rs:39-60. *)
Record value := mk_value {
  v_encoder : encoder;
  v_class : class;
  v_constructed : bool;
  v_tag : N;
  v_content_len : blength;
  v_content : act
}.
(** src/to_ber.rs:49-61, src/to_der.rs:65-77 *)
Definition a_write_header (v : value) : act :=
  andthen (a_write_tag_info (v_encoder v) (v_class v) (v_constructed v) (v_tag v)) (a_write_length (v_content_len v)).
(** src/to_ber.rs:66-70, 121-123, src/to_der.rs:82-86, 137-139 ([ber_encode], [write_ber], [der_encode], [write_der]) *)
Definition a_encode (v : value) : act := andthen (a_write_header v) (v_content v).
(** src/to_ber.rs:32-36, 186-189 *)
Definition v_total_len (v : value) : blength := ber_total_length (v_tag v) (v_content_len v).
(** src/header.rs:413-443 *)
Definition v_header (h : header) : value :=
  mk_value EncGeneric (h_class h) (h_constructed h) (h_tag h) (h_length h) (stop (Ok 0)).
(** src/to_ber.rs:77-90, src/to_der.rs:93-106 *)
Definition a_encode_tagged_explicit (c : class) (tag : N) (v : value) : act :=
  andthen (andthen (a_write_header (v_header (header_new c true tag (v_total_len v)))) (a_write_header v)) (v_content v).
(** src/to_ber.rs:97-109, src/to_der.rs:113-125 *)
Definition a_encode_tagged_implicit (c : class) (tag : N) (v : value) : act :=
  andthen (a_write_header (v_header (header_new c (v_constructed v) tag (v_content_len v)))) (v_content v).
(** src/to_ber.rs:112-116, src/to_der.rs:128-132 *)
Definition a_to_vec (v : value) : res bytes :=
  match run vec_target [] (a_encode v) with
  | (b, Done (Ok _)) => Ok b
  | (_, Done (Err e)) => Err e
  | (_, Done (Incomplete n)) => Incomplete n
  | (_, _) => Panic
  end.
(** [try_fold(0, |acc, t| acc + t.ber_encode(target)?)]: src/asn1_types/sequence/vec.rs:190-198, src/to_ber/constructed_indefinite.rs:69-72
    and the like. *)
Fixpoint a_write_items (vs : list value) : act :=
  match vs with
  | [] => stop (Ok 0)
  | v :: r => andthen (a_encode v) (a_write_items r)
  end.

(** ** Types *)

(** Contents written in one call. *)
Definition prim (tag : N) (d : bytes) : value := mk_value (EncPrimitive tag) Universal false tag (Definite (blen d)) (put d (blen d)).
(** src/asn1_types/boolean.rs:96-130, 179-214 *)
Definition v_boolean (v : N) : value := prim TagBoolean [v].
Definition v_boolean_der (v : N) : value := prim TagBoolean [if v =? 0 then 0 else 0xff].
Definition v_bool (v : bool) : value := prim TagBoolean [if v then 0xff else 0].
(** src/asn1_types/null.rs:68-84, 129-145: nothing is written. *)
Definition v_null : value := mk_value (EncPrimitive TagNull) Universal false TagNull (Definite 0) (stop (Ok 0)).
(** src/asn1_types/integer.rs:146-188, 245-286, src/asn1_types/enumerated.rs:66-85 *)
Definition a_integer_data (d : res bytes) : act :=
  match d with
  | Ok d => put d (blen d)
  | Err e => stop (Err e)
  | Incomplete n => stop (Incomplete n)
  | Panic => stop Panic
  end.
Definition v_int (w : nat) (z : Z) : value :=
  mk_value (EncPrimitive TagInteger) Universal false TagInteger (integer_data_len (integer_from_int w z))
           (a_integer_data (integer_from_int w z)).
Definition v_uint (w : nat) (z : Z) : value :=
  mk_value (EncPrimitive TagInteger) Universal false TagInteger (integer_data_len (integer_from_uint w z))
           (a_integer_data (integer_from_uint w z)).
Definition v_enum (z : Z) : value :=
  mk_value (EncPrimitive TagEnumerated) Universal false TagEnumerated (integer_data_len (integer_from_uint 4 z))
           (a_integer_data (integer_from_uint 4 z)).
(** src/asn1_types/integer.rs:646-663, octetstring.rs:124-144, 198-216, strings.rs:179-215, strings/str.rs:72-89, strings/string.rs:62-79 *)
Definition v_integer (d : bytes) : value := prim TagInteger d.
Definition v_octet (d : bytes) : value := prim TagOctetString d.
Definition v_string (k : string_kind) (s : list N) : value := prim (kind_tag k) (str_bytes s).
Definition v_str (s : list N) : value := prim TagUtf8String (str_bytes s).
(** src/asn1_types/oid.rs:106-121 *)
Definition v_oid (o : oid) : value :=
  mk_value EncGeneric Universal false (oid_tag o) (Definite (blen (oid_asn1 o))) (put (oid_asn1 o) (blen (oid_asn1 o))).
(** src/asn1_types/strings/bmpstring.rs:138-160 *)
Definition v_bmp (s : list N) : value :=
  mk_value (EncPrimitive TagBmpString) Universal false TagBmpString (Definite (blen (encode_utf16 s) * 2))
           (put (bmp_bytes s) (blen (bmp_bytes s))).
(** src/asn1_types/strings/universalstring.rs:135-154: one call for each character. *)
Definition v_universal (s : list N) : value :=
  mk_value (EncPrimitive TagUniversalString) Universal false TagUniversalString (Definite (blen (str_bytes s) * 4))
           (map be32 s, Ok (blen (str_bytes s) * 4)).
(** src/asn1_types/bitstring.rs:184-213 *)
Definition v_bitstring (b : bitstring) : value :=
  mk_value (EncPrimitive TagBitString) Universal false TagBitString (Definite (1 + (N.of_nat (bs_len b) + 7) / 8))
           ([[(8 * blen (bs_raw b) - N.of_nat (bs_len b)) mod 256]; bs_raw b], Ok (1 + blen (bs_raw b))).
(** src/asn1_types/utctime.rs:230-257, src/asn1_types/generalizedtime.rs:307-351 *)
Definition v_utc (t : datetime) : value :=
  mk_value (EncPrimitive TagUtcTime) Universal false TagUtcTime (Definite 13)
           ([pad 2 (dt_year t); pad 2 (dt_month t); pad 2 (dt_day t); pad 2 (dt_hour t); pad 2 (dt_minute t);
             pad 2 (dt_second t); [90]], Ok 13).
Definition v_gen (t : datetime) : value :=
  mk_value (EncPrimitive TagGeneralizedTime) Universal false TagGeneralizedTime
           (Definite (15 + match dt_millisecond t with None => 0 | Some v => 1 + blen (decimal v) end))
           ([pad 4 (dt_year t); pad 2 (dt_month t); pad 2 (dt_day t); pad 2 (dt_hour t); pad 2 (dt_minute t);
             pad 2 (dt_second t); fraction_text (dt_millisecond t); [90]], Ok (15 + blen (fraction_text (dt_millisecond t)))).
(** src/asn1_types/real.rs:385-463: first octet, number of octets of the exponent if it is 4, exponent, mantissa. *)
Definition real_binary_slices (mantissa : f64) (exponent : Z) (enc_base : N) : res (list bytes) :=
  let* (neg, m, e) := drop_floating_point mantissa enc_base exponent in
  if m =? 0 then Panic
  else
    let k := if enc_base =? 2 then 1 else if enc_base =? 8 then 3 else 4 in
    let* (m, e) := shift_loop 64 k m e in
    let (m, sf) := scale_loop 5 m 0 in
    let* a := i32_abs e in
    let len_e := exponent_octets a in
    let first := N.lor (N.lor (N.lor (N.lor 128 (if neg then 64 else 0))
                              (if enc_base =? 2 then 0 else if enc_base =? 8 then 16 else 32))
                       (N.shiftl sf 2 mod 256))
                       ((len_e - 1) mod 4) in
    Ok ([first] :: (if len_e =? 4 then [[len_e]] else [])
        ++ [skipn (N.to_nat (4 - len_e)) (be_bytes 4 (Z.to_N (e mod 2 ^ 32)))]
        ++ [drop_zeroes (be_bytes 8 m)]).
(** src/asn1_types/real.rs:354-466 *)
Definition a_real_write (r : real) : act :=
  match r with
  | RZero => stop (Ok 0)
  | RInfinity => put [64] 1
  | RNegInfinity => put [65] 1
  | RNaN => put [66] 1
  | RBinary m base e enc_base =>
      if base =? 10 then put (real_text m e) (blen (real_text m e))
      else if negb (base =? 2) then stop (Err EInvalidValue)
      else match real_binary_slices m e enc_base with
           | Ok cs => (cs, Ok (blen (concat cs)))
           | Err e => stop (Err e)
           | Incomplete n => stop (Incomplete n)
           | Panic => stop Panic
           end
  end.
(** src/asn1_types/real.rs:342-352: the length is found by writing to [io::sink()]. *)
Definition a_real_content_len (r : real) : blength :=
  match r with
  | RZero => Definite 0
  | RInfinity | RNegInfinity | RNaN => Definite 1
  | RBinary _ _ _ _ => match snd (run sink_target tt (a_real_write r)) with Done (Ok n) => Definite n | _ => Definite 0 end
  end.
Definition v_real (r : real) : value :=
  mk_value (EncPrimitive TagRealType) Universal false TagRealType (a_real_content_len r) (a_real_write r).
(** src/asn1_types/real/f64.rs:56-74, src/asn1_types/real/f32.rs:56-74 *)
Definition v_f64 (x : f64) : value :=
  match real_new x with
  | Ok r => v_real r
  | Err e => mk_value (EncPrimitive TagRealType) Universal false TagRealType (Definite 0) (stop (Err e))
  | _ => mk_value (EncPrimitive TagRealType) Universal false TagRealType (Definite 0) (stop Panic)
  end.
Definition v_f32 (x : spec_float) : value := v_f64 (f32_as_f64 x).
(** src/asn1_types/any.rs:587-602 *)
Definition v_any (a : any) : value :=
  mk_value EncGeneric (h_class (any_header a)) (h_constructed (any_header a)) (h_tag (any_header a))
           (Definite (blen (any_data a))) (put (any_data a) (blen (any_data a))).
(** src/asn1_types/sequence.rs:463-484, src/asn1_types/set.rs:444-465 *)
Definition v_raw (tag : N) (d : bytes) : value :=
  mk_value EncConstructed Universal true tag (Definite (blen d)) (put d (blen d)).

(** ** Containers *)

(** src/asn1_types/sequence/vec.rs:180-231, sequence_of.rs:204-244, array.rs:52-103, any_sequence.rs:95-140, set/set_of.rs:200-245,
    set/btreeset.rs:121-167, set/hashset.rs:122-168, set/any_set.rs:100-141 *)
Definition v_items (tag : N) (vs : list value) : value :=
  mk_value EncConstructed Universal true tag (length_sum (map v_total_len vs)) (a_write_items vs).
(** src/to_ber/constructed_indefinite.rs:58-83 *)
Definition v_indefinite (vs : list value) : value :=
  mk_value EncConstructedIndefinite Universal true TagSequence Indefinite (andthen (a_write_items vs) (put [0; 0] 2)).
(** src/asn1_types/tagged/explicit.rs:172-217, src/asn1_types/tagged/implicit.rs:182-223 *)
Definition v_explicit (c : class) (t inner_tag : N) (v : value) : value :=
  mk_value EncGeneric c true t
           (length_add (Definite (unwrap_or0 (ber_header_length inner_tag (v_content_len v)))) (v_content_len v)) (a_encode v).
Definition v_implicit (c : class) (k : bool) (t : N) (v : value) : value :=
  mk_value EncGeneric c k t (v_content_len v) (v_content v).
(** src/asn1_types/tagged/explicit.rs:346-384, src/asn1_types/tagged/implicit.rs:344-382 *)
Definition v_tp_explicit (h : header) (v : value) : value := mk_value EncGeneric (h_class h) true (h_tag h) (v_total_len v) (a_encode v).
Definition v_tp_implicit (h : header) (v : value) : value :=
  mk_value EncGeneric (h_class h) false (h_tag h) (v_content_len v) (v_content v).
(** src/asn1_types/optional.rs:200-205, 232-237 *)
Definition a_option_encode (o : option value) : act := match o with Some v => a_encode v | None => stop (Ok 0) end.

(** derive/src/container.rs:505-559, 592-651: the fields of a derived struct. *)
Record apart := mk_apart { ap_len : blength -> res blength; ap_write : act }.
Definition a_plain_part (v : value) : apart := mk_apart (fun acc => Ok (length_add acc (v_total_len v))) (a_encode v).
Definition a_explicit_part (c : class) (t : N) (v : value) : apart :=
  mk_apart (fun acc => Ok (length_add (length_add acc (Definite (unwrap_or0 (ber_header_length t (v_total_len v))))) (v_total_len v)))
           (a_encode_tagged_explicit c t v).
Definition a_implicit_part (c : class) (t : N) (v : value) : apart :=
  mk_apart (fun acc => Ok (length_add (length_add acc (Definite (unwrap_or0 (ber_header_length t (v_total_len v))))) (v_content_len v)))
           (a_encode_tagged_implicit c t v).
(** src/asn1_types/optional.rs:155-238: the length of [Some] has no end. *)
Definition a_option_part (o : option value) : apart :=
  mk_apart (fun acc => let* t := option_tag o in
                       Ok (length_add acc (ber_total_length t (match o with Some v => v_content_len v | None => Definite 0 end))))
           (a_option_encode o).
Fixpoint a_parts_len (ps : list apart) (acc : blength) : res blength :=
  match ps with
  | [] => Ok acc
  | p :: ps => let* acc := ap_len p acc in a_parts_len ps acc
  end.
Fixpoint a_parts_write (ps : list apart) : act :=
  match ps with
  | [] => stop (Ok 0)
  | p :: ps => andthen (ap_write p) (a_parts_write ps)
  end.
(** derive/src/container.rs:561-590, 653-690 *)
Definition v_struct (tag : N) (ps : list apart) : value :=
  match a_parts_len ps (Definite 0) with
  | Ok l => mk_value EncGeneric Universal true tag l (a_parts_write ps)
  | _ => mk_value EncGeneric Universal true tag (Definite 0) (stop Panic)
  end.
(** derive/src/choice.rs:352-449, derive/src/alias.rs:212-258 *)
Definition v_variant (k : option tag_kind) (c : class) (constructed : bool) (t : N) (v : value) : value :=
  mk_value EncGeneric c constructed t
           (match k with Some KExplicit => v_total_len v | _ => v_content_len v end)
           (match k with Some KExplicit => a_encode v | _ => v_content v end).
(** derive/src/enumerated.rs:162-225 *)
Definition v_denum (d : N) : value :=
  mk_value EncGeneric Universal false TagEnumerated (v_content_len (v_enum (Z.of_N d))) (v_content (v_enum (Z.of_N d))).
Definition v_alias (v : value) : value :=
  mk_value EncGeneric (v_class v) (v_constructed v) (v_tag v) (v_content_len v) (v_content v).
