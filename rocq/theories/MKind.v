(** Model of the container types, tagged types and derived types with spans and log: what MSpan and MTrace do for [Any], vectors
    and explicit tags. *)
From Verif Require Import Base MHeader MEncode MBer MInt MSeg MText MCont MColl MDerive MSpan MTrace.

(** What a type provides, with [parse_ber] and [parse_der], which some types override. *)
Record kparser (T : Type) := mk_kparser {
  kp_accept : N -> bool;
  kp_ber : sheader -> input -> lres (input * T);
  kp_der : sheader -> input -> lres (input * T);
  kp_parse_ber : input -> lres (input * T);
  kp_parse_der : input -> lres (input * T)
}.
Arguments mk_kparser {T}.
Arguments kp_accept {T}.
Arguments kp_ber {T}.
Arguments kp_der {T}.
Arguments kp_parse_ber {T}.
Arguments kp_parse_der {T}.
(** The methods which have no default. *)
Definition kp_contents {T} (p : kparser T) : tparser T := mk_tparser (kp_accept p) (kp_ber p) (kp_der p).

(** What [parse_ber_segmented] uses of its type parameter: [accept_tag], [Default], [Appendable], [from_ber_content] on a primitive
    header; and the limit given to it. *)
Record segments (T : Type) := mk_segments {
  sg_accept : N -> bool;
  sg_default : T;
  sg_append : T -> T -> T;
  sg_prim : header -> bytes -> res (bytes * T);
  sg_limit : nat
}.
Arguments mk_segments {T}.
Arguments sg_accept {T}.
Arguments sg_default {T}.
Arguments sg_append {T}.
Arguments sg_prim {T}.
Arguments sg_limit {T}.

Section kinds.
Variable c : config.

(** The default methods (src/from_ber.rs:98-116, src/from_der.rs:140-162). *)
Definition k_default {T} (p : tparser T) : kparser T :=
  mk_kparser (tp_accept p) (tp_ber p) (tp_der p) (t_parse_ber c p) (t_parse_der c p).

(** ** Collections *)

(** src/asn1_types/iterator.rs:89-110, 153-174 *)
Definition k_collect_ber {T} (p : kparser T) (i : input) : lres (input * list T) :=
  t_collect_loop (t_parse_ber c (quiet s_any_parser)) (t_convert_item (kp_accept p) (kp_ber p)) (S (length (in_data i))) i.
Definition k_collect_der {T} (p : kparser T) (i : input) : lres (input * list T) :=
  t_collect_loop (t_parse_der c (quiet s_any_parser)) (t_convert_item (kp_accept p) (kp_der p)) (S (length (in_data i))) i.

(** src/asn1_types/sequence/vec.rs:63-115, src/asn1_types/sequence/sequence_of.rs:117-151 *)
Definition k_vec {T} (p : kparser T) : kparser (list T) := k_default (t_vec_parser c (kp_contents p)).

(** src/asn1_types/sequence/array.rs:15-49 *)
Definition k_array_content {T} (n : nat) (vec : sheader -> input -> lres (input * list T)) (h : sheader) (i : input)
  : lres (input * list T) :=
  let! (rem, v) := vec h i in
  silent (if (length v =? n)%nat then SOk (rem, v) else SErr i EInvalidLength).
Definition k_array {T} (n : nat) (p : kparser T) : kparser (list T) :=
  k_default (mk_tparser (is_tag TagSequence) (k_array_content n (kp_ber (k_vec p))) (k_array_content n (kp_der (k_vec p)))).

(** src/asn1_types/set/set_of.rs:117-157, src/asn1_types/set/btreeset.rs:35-73, src/asn1_types/set/hashset.rs:34-74: [of_list] is
    [collect]. *)
Definition k_set_content {T} (of_list : list T -> list T) (collect : input -> lres (input * list T)) (h : sheader) (i : input)
  : lres (input * list T) :=
  let! _ := silent (at_input i (assert_constructed (sh_fields h))) in
  let! (rem, v) := collect i in
  silent (SOk (rem, of_list v)).
Definition k_set {T} (of_list : list T -> list T) (p : kparser T) : kparser (list T) :=
  k_default (mk_tparser (is_tag TagSet) (k_set_content of_list (k_collect_ber p)) (k_set_content of_list (k_collect_der p))).

(** src/asn1_types/sequence/any_sequence.rs:60-92 with src/asn1_types/iterator.rs:53-63, 117-127 *)
Definition k_any_items_content (parse : input -> lres (input * sany)) (h : sheader) (i : input) : lres (input * list sany) :=
  let! _ := silent (at_input i (assert_constructed (sh_fields h))) in
  t_collect_loop parse (fun a => silent (SOk a)) (S (length (in_data i))) i.
Definition k_any_sequence : kparser (list sany) :=
  k_default (mk_tparser (is_tag TagSequence) (k_any_items_content (t_parse_ber c (quiet s_any_parser)))
                        (k_any_items_content (t_parse_der c (quiet s_any_parser)))).

(** ** Strings *)

(** src/ber/appendable.rs:43-60 with src/asn1_types/iterator.rs:177-202: what MSeg does in [seg_loop]. *)
Fixpoint k_seg_loop {T} (g : segments T) (seg : sheader -> input -> lres (input * T)) (fuel : nat) (data : input) (v : T) : lres T :=
  match fuel with
  | O => silent (SErr data EFuel)
  | S f =>
      if blen (in_data data) =? 0 then silent (SOk v)
      else
        let! (rem, obj) := (fst (t_parse_ber c (quiet s_any_parser) data), s_close data (snd (t_parse_ber c (quiet s_any_parser) data))) in
        let h2 := sa_header obj in
        if h_tag (sh_fields h2) =? TagEndOfContent then silent (SOk v)
        else if negb (sg_accept g (h_tag (sh_fields h2))) then silent (SErr (sa_data obj) EInvalidTag)
        else if blen (in_data (sa_data obj)) =? 0 then k_seg_loop g seg f rem v
        else
          let! (_, part) := seg h2 (sa_data obj) in
          k_seg_loop g seg f rem (sg_append g v part)
  end.
(** src/ber/appendable.rs:18-67.  Errors of [sg_prim] are placed at its input. *)
Fixpoint k_segmented {T} (g : segments T) (limit : nat) (h : sheader) (i : input) : lres (input * T) :=
  match limit with
  | O => silent (SErr i EBerMaxDepth)
  | S limit =>
      if blen (in_data i) =? 0 then silent (SErr i EInvalidLength)
      else if h_constructed (sh_fields h) then
        let! (rem, data) := if is_definite (h_length (sh_fields h)) then t_ber_object_content c h i MAX_RECURSION
                            else silent (in_take_split i (blen (in_data i))) in
        let! v := k_seg_loop g (k_segmented g limit) (S (length (in_data data))) data (sg_default g) in
        silent (SOk (rem, v))
      else
        let! (rem, data) := t_ber_object_content c h i MAX_RECURSION in
        let! (_, t) := silent (s_plain_content (sg_prim g) h data) in
        silent (SOk (rem, t))
  end.
(** src/asn1_types/octetstring.rs:57-91, src/asn1_types/bitstring.rs:84-141, src/asn1_types/strings.rs:109-161,
    src/asn1_types/strings/string.rs:18-50: [finish] makes the value; BMPString and UniversalString, which never look for
    segments, log nothing and are [KPlain]. *)
Definition k_string_ber {T U} (g : segments T) (finish : T -> res U) (h : sheader) (i : input) : lres (input * U) :=
  let! (rem, d) := if negb (h_constructed (sh_fields h)) then silent (s_plain_content (sg_prim g) h i)
                   else k_segmented g (sg_limit g) h i in
  let! x := silent (at_input rem (finish d)) in
  silent (SOk (rem, x)).
Definition k_string_der {T U} (g : segments T) (finish : T -> res U) (h : sheader) (i : input) : lres (input * U) :=
  let! _ := silent (at_input i (assert_primitive (sh_fields h))) in k_string_ber g finish h i.
Definition k_string {T U} (tag : N) (g : segments T) (finish : T -> res U) : kparser U :=
  k_default (mk_tparser (is_tag tag) (k_string_ber g finish) (k_string_der g finish)).

(** ** Tags, Option, Alias *)

(** src/asn1_types/tagged/explicit.rs:57-88 and 100-131 *)
Definition k_explicit {T} (cl : class) (t : N) (p : kparser T) : kparser T :=
  k_default (mk_tparser (is_tag t) (t_explicit_content cl t (kp_parse_ber p)) (t_explicit_content cl t (kp_parse_der p))).
(** src/asn1_types/tagged/implicit.rs:73-102 and 104-133 *)
Definition k_implicit_content {T} (cl : class) (content : sheader -> input -> lres (input * T)) (h : sheader) (i : input)
  : lres (input * T) :=
  let! _ := silent (at_input i (check_class (sh_fields h) cl)) in content h i.
Definition k_implicit {T} (cl : class) (t : N) (p : kparser T) : kparser T :=
  k_default (mk_tparser (is_tag t) (k_implicit_content cl (kp_ber p)) (k_implicit_content cl (kp_der p))).
Definition k_tagged {T} (g : tagging) (p : kparser T) : kparser T :=
  match tg_kind g with
  | KExplicit => k_explicit (tg_class g) (tg_num g) p
  | KImplicit => k_implicit (tg_class g) (tg_num g) p
  end.
(** src/asn1_types/optional.rs:36-122 *)
Definition k_option {T} (p : kparser T) : kparser (option T) :=
  mk_kparser (kp_accept p) (t_option_content c (kp_accept p) (kp_ber p)) (t_option_content c (kp_accept p) (kp_der p))
             (t_option_parse_ber c (kp_contents p)) (t_option_parse_der c (kp_contents p)).
(** derive/src/alias.rs:112-210 *)
Definition k_alias {T} (p : kparser T) : kparser T := k_default (kp_contents p).

(** ** Tuples and structs *)

Definition kfield (T : Type) := input -> lres (input * T).
(** src/asn1_types/sequence/tuple.rs:18-25, 37-44; derive/src/container.rs:360-375 *)
Definition k_no_field : kfield unit := fun i => silent (SOk (i, tt)).
Definition k_field {A B} (p : kfield A) (f : kfield B) : kfield (A * B) := fun i =>
  let! (rem, x) := p i in
  let! (rem, y) := f rem in
  silent (SOk (rem, (x, y))).
(** src/asn1_types/sequence/tuple.rs:5-45 *)
Definition k_tuple {T} (ber der : kfield T) : kparser T :=
  k_default (mk_tparser (is_tag TagSequence) (fun _ i => ber i) (fun _ i => der i)).
(** derive/src/container.rs:969-995 *)
Definition k_tagged_optional {T} (header : input -> lres (input * sheader)) (t : N) (p : kfield T) : kfield (option T) := fun i =>
  if blen (in_data i) =? 0 then silent (SOk (i, None))
  else
    let! (_, h) := header i in
    if h_tag (sh_fields h) =? t then let! (rem, x) := p i in silent (SOk (rem, Some x))
    else silent (SOk (i, None)).
(** derive/src/container.rs:952-956 *)
Definition k_with_default {T} (d : T) (p : kfield (option T)) : kfield T := fun i =>
  let! (rem, o) := p i in
  silent (SOk (rem, match o with Some x => x | None => d end)).
(** derive/src/container.rs:264-404 *)
Definition k_struct_content {T} (f : kfield T) (h : sheader) (i : input) : lres (input * T) :=
  let! _ := silent (at_input i (assert_constructed (sh_fields h))) in f i.
Definition k_struct {T} (tag : N) (ber der : kfield T) : kparser T :=
  k_default (mk_tparser (is_tag tag) (k_struct_content ber) (k_struct_content der)).

(** ** Choices *)

(** derive/src/choice.rs:188-278 and 280-350 *)
Definition kvariant (T : Type) := sheader -> input -> lres (input * T).
Definition k_no_variant : kvariant Empty_set := fun _ i => silent (SErr i EUnexpectedTag).
Definition k_tagged_variant {A B} (k : tag_kind) (t : N) (p : input -> lres (input * A)) (content : sheader -> input -> lres (input * A))
    (rest : kvariant B) : kvariant (A + B) := fun h i =>
  if h_tag (sh_fields h) =? t then
    let! (rem, x) := match k with KExplicit => p i | KImplicit => content h i end in
    silent (SOk (rem, inl x))
  else let! (rem, y) := rest h i in silent (SOk (rem, inr y)).
Definition k_untagged_variant {A B} (accept : N -> bool) (content : sheader -> input -> lres (input * A)) (rest : kvariant B)
  : kvariant (A + B) := fun h i =>
  if accept (h_tag (sh_fields h)) then let! (rem, x) := content h i in silent (SOk (rem, inl x))
  else let! (rem, y) := rest h i in silent (SOk (rem, inr y)).
Definition k_choice_content {T} (k : option tag_kind) (vs : kvariant T) (h : sheader) (i : input) : lres (input * T) :=
  match k with
  | Some KExplicit => let! _ := silent (at_input i (assert_constructed (sh_fields h))) in vs h i
  | _ => vs h i
  end.
Definition k_choice {T} (k : option tag_kind) (accept : N -> bool) (ber der : kvariant T) : kparser T :=
  k_default (mk_tparser accept (k_choice_content k ber) (k_choice_content k der)).

End kinds.

(** ** Types

    [kty S U]: a type whose values are [S] with spans and [U] without.  [KPlain] is a type whose values hold no [Input] and whose
    content parsers log nothing; the orders
    and equalities of set elements do not look at spans ([AnySet], whose equality does, is in MColl). *)
Inductive kty : Type -> Type -> Type :=
| KAny : kty sany any
| KPlain T (p : codec T) : kty T T
| KInteger : kty bytes bytes
| KString T U (tag : N) (g : segments T) (finish : T -> res U) : kty U U
| KVec S U (t : kty S U) : kty (list S) (list U)
| KArray S U (n : nat) (t : kty S U) : kty (list S) (list U)
| KSetOf S U (t : kty S U) : kty (list S) (list U)
| KBTreeSet S U (cmp : U -> U -> comparison) (t : kty S U) : kty (list S) (list U)
| KHashSet S U (same : U -> U -> bool) (t : kty S U) : kty (list S) (list U)
| KAnySequence : kty (list sany) (list any)
| KTagged S U (g : tagging) (t : kty S U) : kty S U
| KOption S U (t : kty S U) : kty (option S) (option U)
| KAlias S U (t : kty S U) : kty S U
| KTuple S U (fs : kfields S U) : kty S U
| KStruct S U (set : bool) (fs : kfields S U) : kty S U
| KChoice S U (k : option tag_kind) (vs : kvariants S U) : kty S U
with kfields : Type -> Type -> Type :=
| KNil : kfields unit unit
| KField S U S' U' (t : kty S U) (fs : kfields S' U') : kfields (S * S') (U * U')
| KDefault S U S' U' (d : S) (t : kty S U) (fs : kfields S' U') : kfields (S * S') (U * U')
| KTaggedOption S U S' U' (g : tagging) (t : kty S U) (fs : kfields S' U') : kfields (option S * S') (option U * U')
| KTaggedDefault S U S' U' (g : tagging) (d : S) (t : kty S U) (fs : kfields S' U') : kfields (S * S') (U * U')
with kvariants : Type -> Type -> Type :=
| KEmpty : kvariants Empty_set Empty_set
| KVariant S U S' U' (n : N) (t : kty S U) (vs : kvariants S' U') : kvariants (S + S') (U + U').
Arguments KPlain {T}.
Arguments KString {T U}.
Arguments KVec {S U}.
Arguments KArray {S U}.
Arguments KSetOf {S U}.
Arguments KBTreeSet {S U}.
Arguments KHashSet {S U}.
Arguments KTagged {S U}.
Arguments KOption {S U}.
Arguments KAlias {S U}.
Arguments KTuple {S U}.
Arguments KStruct {S U}.
Arguments KChoice {S U}.
Arguments KField {S U S' U'}.
Arguments KDefault {S U S' U'}.
Arguments KTaggedOption {S U S' U'}.
Arguments KTaggedDefault {S U S' U'}.
Arguments KVariant {S U S' U'}.

(** src/asn1_types/octetstring.rs:57-118 *)
Definition octets : segments bytes := mk_segments (is_tag TagOctetString) [] (@app N) octet_prim OCTETSTRING_MAX_RECURSION.
Definition KOctets : kty bytes bytes := KString TagOctetString octets (fun d => Ok d).
(** src/asn1_types/bitstring.rs:84-126, 178-182 *)
Definition bits : segments bitstring := mk_segments (is_tag TagBitString) (mk_bits 0 [] 0) bitstring_append bitstring_prim BITSTRING_MAX_RECURSION.
Definition KBits : kty bitstring bitstring := KString TagBitString bits (fun d => Ok d).
(** src/asn1_types/strings.rs:109-161, src/asn1_types/strings/string.rs:18-50 *)
Definition text (k : string_kind) (data : bytes) : res (list N) :=
  let* _ := test_valid_charset k data in
  match from_utf8 data with Some s => Ok s | None => Err EStringInvalidCharset end.
Definition KText (k : string_kind) : kty (list N) (list N) := KString (kind_tag k) octets (text k).

(** A value without its spans. *)
Fixpoint kbare {S U} (t : kty S U) : S -> U :=
  match t with
  | KAny => forget_any
  | KPlain _ => fun x => x
  | KInteger => fun x => x
  | KString _ _ _ => fun x => x
  | KVec t | KArray _ t | KSetOf t | KBTreeSet _ t | KHashSet _ t => map (kbare t)
  | KAnySequence => map forget_any
  | KTagged _ t | KAlias t => kbare t
  | KOption t => option_map (kbare t)
  | KTuple fs | KStruct _ fs => kbare_fields fs
  | KChoice _ vs => kbare_variants vs
  end
with kbare_fields {S U} (fs : kfields S U) : S -> U :=
  match fs with
  | KNil => fun x => x
  | KField t fs | KDefault _ t fs | KTaggedDefault _ _ t fs => fun v => (kbare t (fst v), kbare_fields fs (snd v))
  | KTaggedOption _ t fs => fun v => (option_map (kbare t) (fst v), kbare_fields fs (snd v))
  end
with kbare_variants {S U} (vs : kvariants S U) : S -> U :=
  match vs with
  | KEmpty => fun x => x
  | KVariant _ t vs => fun v => match v with inl x => inl (kbare t x) | inr y => inr (kbare_variants vs y) end
  end.

(** ** The parsers of the types *)

Section parsers.
Variable c : config.

Fixpoint kparser_of {S U} (t : kty S U) : kparser S :=
  match t with
  | KAny => k_default c (quiet s_any_parser)
  | KPlain p => k_default c (quiet (s_plain_parser (codec_parser p)))
  | KInteger => k_default c (t_integer_parser c)
  | KString tag g finish => k_string c tag g finish
  | KVec t => k_vec c (kparser_of t)
  | KArray n t => k_array c n (kparser_of t)
  | KSetOf t => k_set c (fun l => l) (kparser_of t)
  | KBTreeSet cmp t => k_set c (set_of_list (fun x y => cmp (kbare t x) (kbare t y))) (kparser_of t)
  | KHashSet same t => k_set c (hash_collect (fun x y => same (kbare t x) (kbare t y))) (kparser_of t)
  | KAnySequence => k_any_sequence c
  | KTagged g t => k_tagged c g (kparser_of t)
  | KOption t => k_option c (kparser_of t)
  | KAlias t => k_alias c (kparser_of t)
  | KTuple fs => k_tuple c (kber_of fs) (kder_of fs)
  | KStruct set fs => k_struct c (if set then TagSet else TagSequence) (kber_of fs) (kder_of fs)
  | KChoice k vs => k_choice c k (kaccept_of k vs) (kber_variants k vs) (kder_variants k vs)
  end
with kber_of {S U} (fs : kfields S U) : kfield S :=
  match fs with
  | KNil => k_no_field
  | KField t fs => k_field (kp_parse_ber (kparser_of t)) (kber_of fs)
  | KDefault d t fs => k_field (k_with_default d (kp_parse_ber (k_option c (kparser_of t)))) (kber_of fs)
  | KTaggedOption g t fs =>
      k_field (k_tagged_optional (t_header c) (tg_num g) (kp_parse_ber (k_tagged c g (kparser_of t)))) (kber_of fs)
  | KTaggedDefault g d t fs =>
      k_field (k_with_default d (k_tagged_optional (t_header c) (tg_num g) (kp_parse_ber (k_tagged c g (kparser_of t))))) (kber_of fs)
  end
with kder_of {S U} (fs : kfields S U) : kfield S :=
  match fs with
  | KNil => k_no_field
  | KField t fs => k_field (kp_parse_der (kparser_of t)) (kder_of fs)
  | KDefault d t fs => k_field (k_with_default d (kp_parse_der (k_option c (kparser_of t)))) (kder_of fs)
  | KTaggedOption g t fs =>
      k_field (k_tagged_optional (t_header_der c) (tg_num g) (kp_parse_der (k_tagged c g (kparser_of t)))) (kder_of fs)
  | KTaggedDefault g d t fs =>
      k_field (k_with_default d (k_tagged_optional (t_header_der c) (tg_num g) (kp_parse_der (k_tagged c g (kparser_of t))))) (kder_of fs)
  end
with kaccept_of {S U} (k : option tag_kind) (vs : kvariants S U) : N -> bool :=
  match vs with
  | KEmpty => fun _ => false
  | KVariant n t vs => fun x => (match k with Some _ => x =? n | None => kp_accept (kparser_of t) x end) || kaccept_of k vs x
  end
with kber_variants {S U} (k : option tag_kind) (vs : kvariants S U) : kvariant S :=
  match vs with
  | KEmpty => k_no_variant
  | KVariant n t vs =>
      match k with
      | Some kd => k_tagged_variant kd n (kp_parse_ber (kparser_of t)) (kp_ber (kparser_of t)) (kber_variants k vs)
      | None => k_untagged_variant (kp_accept (kparser_of t)) (kp_ber (kparser_of t)) (kber_variants k vs)
      end
  end
with kder_variants {S U} (k : option tag_kind) (vs : kvariants S U) : kvariant S :=
  match vs with
  | KEmpty => k_no_variant
  | KVariant n t vs =>
      match k with
      | Some kd => k_tagged_variant kd n (kp_parse_der (kparser_of t)) (kp_der (kparser_of t)) (kder_variants k vs)
      | None => k_untagged_variant (kp_accept (kparser_of t)) (kp_der (kparser_of t)) (kder_variants k vs)
      end
  end.
End parsers.
