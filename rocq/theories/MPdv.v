(** Model of EMBEDDED PDV. *)
From Verif Require Import Base MHeader MEncode MBer MInt MSeg MOid MText MCont.

(** src/asn1_types/embedded_pdv.rs:20-34 *)
Inductive pdv_identification :=
| PdvSyntaxes (s_abstract s_transfer : oid)
| PdvSyntax (o : oid)
| PdvPresentationContextId (n : bytes)
| PdvContextNegotiation (n : bytes) (o : oid)
| PdvTransferSyntax (o : oid)
| PdvFixed.

(** src/asn1_types/embedded_pdv.rs:12-18 *)
Record embedded_pdv := mk_pdv {
  pdv_identification_of : pdv_identification;
  pdv_descriptor : option (list N);
  pdv_value : bytes
}.

(** [TaggedImplicit<T, _, N>::parse_ber]: src/asn1_types/tagged/implicit.rs:73-102, as used in src/asn1_types/embedded_pdv.rs:45-129. *)
Definition tagged0 {T} (n : N) (p : codec T) : bytes -> res (bytes * T) :=
  ps_parse_ber (implicit_parser ContextSpecific n (codec_parser p)).

(** src/asn1_types/embedded_pdv.rs:56-114 (the [match]; [a] is [inner0]). *)
Definition pdv_identify (a : any) : res pdv_identification :=
  let t := h_tag (any_header a) in
  if t =? 0 then
    let* (rem, x) := tagged0 0 oid_codec (any_data a) in
    let* (_, y) := tagged0 1 oid_codec rem in
    Ok (PdvSyntaxes x y)
  else if t =? 1 then let* (_, x) := oid_ber_content (any_header a) (any_data a) in Ok (PdvSyntax x)
  else if t =? 2 then let* (_, x) := integer_ber_content (any_header a) (any_data a) in Ok (PdvPresentationContextId x)
  else if t =? 3 then
    let* (rem, x) := tagged0 0 integer_codec (any_data a) in
    let* (_, y) := tagged0 1 oid_codec rem in
    Ok (PdvContextNegotiation x y)
  else if t =? 4 then let* (_, x) := oid_ber_content (any_header a) (any_data a) in Ok (PdvTransferSyntax x)
  else if t =? 5 then Ok PdvFixed
  else Err EInvalidValue.

(** src/asn1_types/embedded_pdv.rs:45-129; the header is not looked at. *)
Definition pdv_ber_content (_ : header) (i : bytes) : res (bytes * embedded_pdv) :=
  let* (rem, a) := tagged0 0 any_codec i in
  let* ident := pdv_identify a in
  let* (rem, d) := ps_parse_ber (option_parser (implicit_parser ContextSpecific 1 (codec_parser (string_codec ObjDescriptor)))) rem in
  let* (rem, v) := tagged0 2 slice_codec rem in
  Ok (rem, mk_pdv ident d v).

(** src/asn1_types/embedded_pdv.rs:135-140 *)
Definition pdv_der_content (h : header) (i : bytes) : res (bytes * embedded_pdv) := pdv_ber_content h i.

(** src/asn1_types/embedded_pdv.rs:144-149 *)
Definition pdv_check (a : any) : res unit :=
  let* _ := length_assert_definite (h_length (any_header a)) in
  assert_constructed (any_header a).

(** src/asn1_types/embedded_pdv.rs:36-40, 152 *)
Definition pdv_codec : codec embedded_pdv :=
  mk_codec (is_tag TagEmbeddedPdv) pdv_ber_content pdv_der_content (default_try_from (is_tag TagEmbeddedPdv) pdv_ber_content) pdv_check.
