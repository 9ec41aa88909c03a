(** Model of the code generated by the derive macros (derive/src/*.rs): [Sequence], [Set] and their older
    forms, [Choice], [Enumerated], [Alias].

    The macros are modelled by what the generated implementations do, given the traits of the field or
    variant types.  Custom errors ([error], [map_err]) are in MCustom.v, custom parsers ([parse] on a field) in MParse.v;
    how attributes are read and which implementations are generated ([asn1(parse = ..., encode = ...)]) in MAttr.v.
    A struct with fields [T1, ..., Tn] is [T1 * (... * (Tn * unit))]; an enum with variants over
    [T1, ..., Tn] is [T1 + (... + (Tn + Empty_set))]. *)
From Verif Require Import Base MHeader MEncode MBer MInt MCont.

(** ** Field attributes *)

(** derive/src/container.rs:696-708 ([FieldInfo::tag]), 794-813 ([parse_tag_args]: the number is a u16). *)
Inductive tag_kind := KExplicit | KImplicit.
Record tagging := mk_tagging { tg_kind : tag_kind; tg_class : class; tg_num : N }.

(** [TaggedValue<T, E, kind, class, tag>] *)
Definition tagged_parser {T} (g : tagging) (P : parser T) : parser T :=
  match tg_kind g with
  | KExplicit => explicit_parser (tg_class g) (tg_num g) P
  | KImplicit => implicit_parser (tg_class g) (tg_num g) P
  end.
Definition tagged_legacy {T} (g : tagging) (L : legacy T) : legacy T :=
  match tg_kind g with
  | KExplicit => explicit_legacy (tg_class g) (tg_num g) L
  | KImplicit => implicit_legacy (tg_class g) (tg_num g) L
  end.

(** ** Reading the fields of a struct *)

(** derive/src/container.rs:969-995 (tagged and optional: [get_field_berparser]), 876-892
    ([get_field_parser]): only the tag number of the header is compared. *)
Definition tagged_optional {T} (parse_header : bytes -> res (bytes * header)) (t : N)
    (p : bytes -> res (bytes * T)) (i : bytes) : res (bytes * option T) :=
  if blen i =? 0 then Ok (i, None)
  else
    let* (_, h) := parse_header i in
    if h_tag h =? t then let* (rem, x) := p i in Ok (rem, Some x)
    else Ok (i, None).

(** derive/src/container.rs:952-956 and 846-850: [unwrap_or]. *)
Definition with_default {T} (d : T) (p : bytes -> res (bytes * option T)) (i : bytes) : res (bytes * T) :=
  let* (rem, o) := p i in
  Ok (rem, match o with Some x => x | None => d end).

(** The kinds of field (derive/src/container.rs:934-1020, 830-910): untagged; untagged of type [Option];
    untagged with a default; tagged; tagged and optional; tagged with a default. *)
Definition fld_plain {T} (P : parser T) : bytes -> res (bytes * T) := ps_parse_ber P.
Definition fld_plain_der {T} (P : parser T) : bytes -> res (bytes * T) := ps_parse_der P.
Definition fld_tagged_optional {T} (g : tagging) (P : parser T) : bytes -> res (bytes * option T) :=
  tagged_optional header_parse_ber (tg_num g) (ps_parse_ber (tagged_parser g P)).
Definition fld_tagged_optional_der {T} (g : tagging) (P : parser T) : bytes -> res (bytes * option T) :=
  tagged_optional header_parse_der (tg_num g) (ps_parse_der (tagged_parser g P)).

(** The same for the older traits (derive/src/container.rs:830-910). *)
Definition lfld_tagged_optional {T} (g : tagging) (L : legacy T) : bytes -> res (bytes * option T) :=
  tagged_optional header_parse_ber (tg_num g) (lg_from_ber (tagged_legacy g L)).
Definition lfld_tagged_optional_der {T} (g : tagging) (L : legacy T) : bytes -> res (bytes * option T) :=
  tagged_optional header_parse_der (tg_num g) (lg_from_der (tagged_legacy g L)).

(** derive/src/container.rs:264-404 ([gen_berparser], [gen_assert_constructed]); [fields] read one after
    the other, what follows the last one is returned ("XXX check if rem empty?").  [tag] is 16 or 17
    (214-257: [gen_tagged]). *)
Definition struct_content {T} (f : fields T) (h : header) (i : bytes) : res (bytes * T) :=
  let* _ := assert_constructed h in f i.
Definition struct_parser {T} (tag : N) (ber der : fields T) : parser T :=
  default_parser (is_tag tag) (struct_content ber) (struct_content der).

(** derive/src/container.rs:162-212 ([gen_tryfrom]): the tag is checked, the form is not; [f] reads the
    fields with [FromBer]. *)
Definition struct_try_from {T} (tag : N) (f : fields T) (a : any) : res T :=
  let* _ := assert_tag (any_header a) tag in
  let* (_, v) := close (f (any_data a)) in
  Ok v.

(** derive/src/container.rs:406-451 ([gen_checkconstraints]): one object for every field, optional or not,
    checked by the constraints of the field type, without regard to its tag. *)
Fixpoint check_fields (cs : list (any -> res unit)) (i : bytes) : res unit :=
  match cs with
  | [] => Ok tt
  | c :: cs =>
      let* (rem, a) := close (from_der any_codec i) in
      let* _ := c a in
      check_fields cs rem
  end.
Definition struct_check (tag : N) (cs : list (any -> res unit)) (a : any) : res unit :=
  let* _ := assert_tag (any_header a) tag in
  check_fields cs (any_data a).

(** derive/src/container.rs:453-503 ([gen_fromder]): neither the form nor the constraints are checked. *)
Definition struct_from_der {T} (tag : N) (f : fields T) (i : bytes) : res (bytes * T) :=
  let* (rem, a) := from_der any_codec i in
  let* _ := assert_tag (any_header a) tag in
  let* (_, v) := f (any_data a) in
  Ok (rem, v).
Definition struct_legacy {T} (tag : N) (ber der : fields T) (cs : list (any -> res unit)) : legacy T :=
  mk_legacy tag (struct_try_from tag ber) (struct_check tag cs) (blanket_from_ber (struct_try_from tag ber))
            (struct_from_der tag der).

(** ** Writing the fields of a struct *)

(** What one field adds to the length computed so far, and what it writes. *)
Record part := mk_part { pt_len : blength -> res blength; pt_write : wres }.

(** derive/src/container.rs:546-548, 631 (untagged field). *)
Definition plain_part (w : tober) : part := mk_part (fun acc => Ok (length_add acc (total_len w))) (encode w).

(** derive/src/container.rs:526-534, 617-623 (explicit tag). *)
Definition explicit_part (c : class) (t : N) (w : tober) : part :=
  mk_part (fun acc => Ok (length_add (length_add acc (Definite (unwrap_or0 (ber_header_length t (total_len w)))))
                                     (total_len w)))
          (encode_tagged_explicit c t w).

(** derive/src/container.rs:535-545, 624-630 (implicit tag): the header length is computed from the total
    length of the untagged object, not from the length of its content. *)
Definition implicit_part (c : class) (t : N) (w : tober) : part :=
  mk_part (fun acc => Ok (length_add (length_add acc (Definite (unwrap_or0 (ber_header_length t (total_len w)))))
                                     (tb_content_len w)))
          (encode_tagged_implicit c t w).
Definition tagged_part (g : tagging) (w : tober) : part :=
  match tg_kind g with
  | KExplicit => explicit_part (tg_class g) (tg_num g) w
  | KImplicit => implicit_part (tg_class g) (tg_num g) w
  end.

(** A field of type [Option]: [Option::ber_total_len] and [Option::ber_encode]
    (src/asn1_types/optional.rs:172-238). *)
Definition option_part (o : option tober) : part :=
  mk_part (fun acc => let* l := option_total_len o in Ok (length_add acc l)) (option_encode o).

(** src/asn1_types/optional.rs:155-206: [None] has tag 0, universal class, no content. *)
Definition none_tober : tober := mk_tober EncGeneric Universal false 0 (Definite 0) (Ok ([], 0)).

(** A tagged field of type [Option]: the inherited [ber_encode_tagged_explicit] and
    [ber_encode_tagged_implicit] (src/to_ber.rs:77-109), which need [ber_tag_info]. *)
Definition tagged_option_part (g : tagging) (o : option tober) : part :=
  match o with
  | None => tagged_part g none_tober
  | Some _ => mk_part (fun _ => Panic) Panic
  end.

(** derive/src/container.rs:505-559 ([gen_tober_content_len]), 592-651 ([gen_tober_write_content]). *)
Fixpoint parts_len (ps : list part) (acc : blength) : res blength :=
  match ps with
  | [] => Ok acc
  | p :: ps => let* acc := pt_len p acc in parts_len ps acc
  end.
Fixpoint parts_write (ps : list part) : wres :=
  match ps with
  | [] => Ok ([], 0)
  | p :: ps => wseq (pt_write p) (parts_write ps)
  end.

(** derive/src/container.rs:561-590 ([gen_tober_tag_info]), 653-690 ([gen_tober]).  A content length that
    panics is represented by a content that panics when written. *)
Definition struct_tober (tag : N) (ps : list part) : tober :=
  match parts_len ps (Definite 0) with
  | Ok l => mk_tober EncGeneric Universal true tag l (parts_write ps)
  | _ => mk_tober EncGeneric Universal true tag (Definite 0) Panic
  end.
Definition struct_writer {T} (tag : N) (ber der : T -> list part) : writer T :=
  mk_writer (fun _ => Universal) (fun _ => true) (fun _ => tag)
            (fun v => struct_tober tag (ber v)) (fun v => struct_tober tag (der v)).

(** ** Choice *)

(** derive/src/choice.rs:494-539 ([parse_tag_variants]): the numbers given by [tag] attributes, or one more
    than the previous.  [EUnsupported] stands for the error "duplicate tag found"; a number past 2^32 - 1
    overflows. *)
Fixpoint choice_tags_from (current : N) (acc : list N) (vs : list (option N)) : res (list N) :=
  match vs with
  | [] => Ok acc
  | v :: vs =>
      let tag := match v with Some t => t | None => current end in
      if existsb (N.eqb tag) acc then Err EUnsupported
      else if tag =? 2 ^ 32 - 1 then Panic
      else choice_tags_from (tag + 1) (acc ++ [tag]) vs
  end.
Definition choice_tags (vs : list (option N)) : res (list N) := choice_tags_from 0 [] vs.

(** derive/src/choice.rs:188-278 ([derive_choice_parser_tagged]): the branches of [match header.tag().0];
    [p] is [parse_ber] or [parse_der] of the variant type, [content] is [from_ber_content] or
    [from_der_content].  The class is not looked at. *)
Definition variants (T : Type) := header -> bytes -> res (bytes * T).
Definition no_variant : variants Empty_set := fun _ _ => Err EUnexpectedTag.
Definition tagged_variant {A B} (k : tag_kind) (t : N) (p : bytes -> res (bytes * A))
    (content : header -> bytes -> res (bytes * A)) (rest : variants B) : variants (A + B) := fun h i =>
  if h_tag h =? t then
    let* (rem, x) := match k with KExplicit => p i | KImplicit => content h i end in
    Ok (rem, inl x)
  else let* (rem, y) := rest h i in Ok (rem, inr y).

(** derive/src/choice.rs:280-350 ([derive_choice_parser_untagged]): the first variant whose type accepts
    the tag number. *)
Definition untagged_variant {A B} (accept : N -> bool) (content : header -> bytes -> res (bytes * A))
    (rest : variants B) : variants (A + B) := fun h i =>
  if accept (h_tag h) then let* (rem, x) := content h i in Ok (rem, inl x)
  else let* (rem, y) := rest h i in Ok (rem, inr y).

(** derive/src/choice.rs:234-239: only an explicitly tagged choice checks the form. *)
Definition choice_content {T} (k : option tag_kind) (vs : variants T) (h : header) (i : bytes) : res (bytes * T) :=
  match k with
  | Some KExplicit => let* _ := assert_constructed h in vs h i
  | _ => vs h i
  end.

(** derive/src/choice.rs:83-114 ([accept_tag]), 181-350. *)
Definition choice_parser {T} (k : option tag_kind) (accept : N -> bool) (ber der : variants T) : parser T :=
  default_parser accept (choice_content k ber) (choice_content k der).

(** derive/src/choice.rs:115-166, 352-449: the value methods of [DynTagged], and the writer, for a value
    [x] of a variant with number [t]; [w] is the writer of [x]. *)
Definition variant_class {A} (k : option tag_kind) (W : writer A) (x : A) : class :=
  match k with Some _ => ContextSpecific | None => wr_class W x end.
Definition variant_constructed {A} (k : option tag_kind) (W : writer A) (x : A) : bool :=
  match k with Some KExplicit => true | _ => wr_constructed W x end.
Definition variant_tag {A} (k : option tag_kind) (t : N) (W : writer A) (x : A) : N :=
  match k with Some _ => t | None => wr_tag W x end.
Definition variant_tober {A} (k : option tag_kind) (t : N) (W : writer A) (x : A) (w : tober) : tober :=
  mk_tober EncGeneric (variant_class k W x) (variant_constructed k W x) (variant_tag k t W x)
           (match k with Some KExplicit => total_len w | _ => tb_content_len w end)
           (match k with Some KExplicit => encode w | _ => tb_write_content w end).
Definition variant_writer {A} (k : option tag_kind) (t : N) (W : writer A) : writer A :=
  mk_writer (variant_class k W) (variant_constructed k W) (variant_tag k t W)
            (fun x => variant_tober k t W x (wr_ber W x)) (fun x => variant_tober k t W x (wr_der W x)).

(** [match self] *)
Definition no_variant_writer : writer Empty_set :=
  mk_writer (fun x : Empty_set => match x with end) (fun x : Empty_set => match x with end) (fun x : Empty_set => match x with end)
            (fun x : Empty_set => match x with end) (fun x : Empty_set => match x with end).
Definition sum_case {A B R} (f : A -> R) (g : B -> R) (x : A + B) : R :=
  match x with inl a => f a | inr b => g b end.
Definition sum_writer {A B} (V : writer A) (W : writer B) : writer (A + B) :=
  mk_writer (sum_case (wr_class V) (wr_class W)) (sum_case (wr_constructed V) (wr_constructed W))
            (sum_case (wr_tag V) (wr_tag W)) (sum_case (wr_ber V) (wr_ber W)) (sum_case (wr_der V) (wr_der W)).

(** ** Enumerated *)

(** derive/src/enumerated.rs:227-264 ([parse_enum_variants]): explicit discriminants, or one more than the
    previous.  A discriminant of 2^32 - 1 overflows. *)
Fixpoint enum_values_from (current : N) (vs : list (option N)) : res (list N) :=
  match vs with
  | [] => Ok []
  | v :: vs =>
      let d := match v with Some d => d | None => current end in
      if d =? 2 ^ 32 - 1 then Panic
      else let* r := enum_values_from (d + 1) vs in Ok (d :: r)
  end.
Definition enum_values (vs : list (option N)) : res (list N) := enum_values_from 0 vs.

(** derive/src/enumerated.rs:103-160: a value is its discriminant; unknown values are an error. *)
Definition denum_content (ds : list N) (content : header -> bytes -> res (bytes * Z)) (h : header) (i : bytes)
  : res (bytes * N) :=
  let* _ := assert_primitive h in
  let* (rem, v) := content h i in
  if existsb (N.eqb (Z.to_N v)) ds then Ok (rem, Z.to_N v) else Err EUnexpectedTag.

(** derive/src/enumerated.rs:89-160; [Enumerated::from_ber_content] and [from_der_content] are those of
    [enum_codec]. *)
Definition denum_parser (ds : list N) : parser N :=
  default_parser (is_tag TagEnumerated) (denum_content ds (ber_content enum_codec)) (denum_content ds (der_content enum_codec)).

(** derive/src/enumerated.rs:89-101, 162-225 *)
Definition denum_tober (d : N) : tober :=
  mk_tober EncGeneric Universal false TagEnumerated (tb_content_len (tober_enum (Z.of_N d)))
           (tb_write_content (tober_enum (Z.of_N d))).
Definition denum_writer : writer N := same_writer Universal false TagEnumerated denum_tober.

(** ** Alias *)

(** derive/src/alias.rs:112-210: the contents are those of the inner type; [parse_ber] and [parse_der] are
    the default methods, whatever they are for the inner type. *)
Definition alias_parser {T} (P : parser T) : parser T :=
  default_parser (ps_accept P) (ps_ber_content P) (ps_der_content P).

(** derive/src/alias.rs:112-128, 212-258 *)
Definition alias_tober (w : tober) : tober :=
  mk_tober EncGeneric (tb_class w) (tb_constructed w) (tb_tag w) (tb_content_len w) (tb_write_content w).
Definition alias_writer {T} (W : writer T) : writer T :=
  mk_writer (wr_class W) (wr_constructed W) (wr_tag W) (fun v => alias_tober (wr_ber W v)) (fun v => alias_tober (wr_der W v)).

(** derive/src/alias.rs:261-287, 324-354 with derive/src/container.rs:174-183, 411-420, 465-480: the older
    form, for an inner type other than [Any].  [from_der] does not check constraints. *)
Definition alias_from_der {T} (L : legacy T) (i : bytes) : res (bytes * T) :=
  let* (rem, a) := from_der any_codec i in
  let* _ := assert_tag (any_header a) (lg_tag L) in
  let* x := lg_try_from L a in
  Ok (rem, x).
Definition alias_check {T} (L : legacy T) (a : any) : res unit :=
  let* _ := assert_tag (any_header a) (lg_tag L) in lg_check L a.
Definition alias_legacy {T} (L : legacy T) : legacy T :=
  mk_legacy (lg_tag L) (lg_try_from L) (alias_check L) (blanket_from_ber (lg_try_from L)) (alias_from_der L).
