(** * What the derive macros read in a declaration: attributes, and which implementations they generate

    derive/src/container.rs:90-160, 713-813, 912-1010; options.rs; asn1_type.rs:87-107; choice.rs:489-553; enumerated.rs:227-264;
    check_derive.rs; alias.rs; sequence.rs; set.rs; lib.rs.

    The text of the arguments of an attribute is a list of tokens, as [syn] 2 sees them.  A string literal carries the tokens its
    contents consist of.  A refused declaration is [Err EUnsupported] (an error of [syn], which becomes a compile error) or [Panic] (a
    panic of the macro, also a compile error).  Rust expressions are opaque: [expr] is the parser of [syn::Expr] on a whole list of
    tokens.  [syn] and the resolution of attribute names by the compiler are not modelled beyond that. *)
From Coq Require Import List NArith String Ascii.
From Verif Require Import Base MHeader MDerive.
Import ListNotations.
Local Open Scope N_scope.
Local Open Scope list_scope.

(** A word is a list of Unicode scalar values. *)
Fixpoint chars (s : string) : list N :=
  match s with EmptyString => [] | String c s => N_of_ascii c :: chars s end.

Inductive token :=
| Word (w : list N)          (* identifier *)
| Number (n : N)             (* integer literal, any base, suffix dropped *)
| Text (ts : list token)     (* string literal *)
| Punct (c : N)              (* one punctuation character *)
| Other.                     (* anything else: other literals, groups *)

(** [syn::Meta]: [#[name]], [#[name(...)]], [#[name = value]]. *)
Inductive meta := MPath | MList (ts : list token) | MNameValue.
(** [at_name] is [attr.meta.path().get_ident()]: absent for a path of several segments. *)
Record attr := mk_attr { at_name : option (list N); at_meta : meta }.

(** [path().is_ident(s)] *)
Definition is_ident (a : attr) (s : string) : bool :=
  match at_name a with Some w => bytes_eqb w (chars s) | None => false end.

(** [Attribute::parse_args]: the attribute must have arguments, and all of them must be used. *)
Definition parse_args {A} (p : list token -> res (list token * A)) (m : meta) : res A :=
  match m with
  | MList ts =>
      let* (rest, x) := p ts in
      match rest with [] => Ok x | _ => Err EUnsupported end
  | _ => Err EUnsupported
  end.

(** [Result::unwrap] *)
Definition unwrap {A} (r : res A) : res A := match r with Ok x => Ok x | _ => Panic end.

(** ** Tags of fields *)

(** [str::to_uppercase].  Simplified: apart from the letters of ASCII, only the two characters whose upper case is a letter of ASCII are
    changed: dotless i (U+0131) and long s (U+017F). *)
Definition upper (c : N) : N :=
  if (97 <=? c) && (c <=? 122) then c - 32
  else if c =? 0x131 then 73
  else if c =? 0x17F then 83
  else c.

(** derive/src/container.rs:794-813 ([parse_tag_args]) *)
Definition tag_class_of (w : list N) : res class :=
  let s := map upper w in
  if bytes_eqb s (chars "UNIVERSAL") then Ok Universal
  else if bytes_eqb s (chars "CONTEXT-SPECIFIC") then Ok ContextSpecific
  else if bytes_eqb s (chars "APPLICATION") then Ok Application
  else if bytes_eqb s (chars "PRIVATE") then Ok Private
  else Err EUnsupported.

(** [LitInt] and [base10_parse]: [max] is 2^16 or 2^32. *)
Definition parse_number (max : N) (ts : list token) : res (list token * N) :=
  match ts with
  | Number n :: ts => if n <? max then Ok (ts, n) else Err EUnsupported
  | _ => Err EUnsupported
  end.

(** derive/src/container.rs:794-813 ([parse_tag_args]) *)
Definition parse_tag_args (ts : list token) : res (list token * (class * N)) :=
  let* (ts, c) := match ts with
                  | Word w :: ts => let* c := tag_class_of w in Ok (ts, c)
                  | _ => Ok (ts, ContextSpecific)
                  end in
  let* (ts, n) := parse_number (2 ^ 16) ts in
  Ok (ts, (c, n)).

(** ** Nested items: [asn1(name = "text", name, ...)] *)

(** [Attribute::parse_nested_meta] with [ParseNestedMeta::value] and [LitStr]: items separated by commas, the last comma optional.
    [set] is what the closure does with an item and its text. *)
Fixpoint nested {S} (set : S -> list N -> option (list token) -> res S) (s : S) (ts : list token) : res S :=
  match ts with
  | [] => Ok s
  | Word w :: ts =>
      match ts with
      | [] => set s w None
      | Punct c :: ts =>
          if c =? 44 then let* s := set s w None in nested set s ts
          else if c =? 61 then
            match ts with
            | Text v :: ts =>
                let* s := set s w (Some v) in
                match ts with
                | [] => Ok s
                | Punct c :: ts => if c =? 44 then nested set s ts else Err EUnsupported
                | _ => Err EUnsupported
                end
            | _ => Err EUnsupported
            end
          else Err EUnsupported
      | _ => Err EUnsupported
      end
  | _ => Err EUnsupported
  end.
Definition parse_nested_meta {S} (set : S -> list N -> option (list token) -> res S) (s : S) (m : meta) : res S :=
  match m with MList ts => nested set s ts | _ => Err EUnsupported end.

(** ** Fields *)

(** derive/src/container.rs:696-708 ([FieldInfo]); [encode] is never set in a declaration that is accepted. *)
Record field_info (E : Type) := mk_field {
  fi_default : option E; fi_optional : bool; fi_tag : option tagging; fi_map_err : option E; fi_parse : option E }.
Arguments mk_field {E}. Arguments fi_default {E}. Arguments fi_optional {E}. Arguments fi_tag {E}. Arguments fi_map_err {E}.
Arguments fi_parse {E}.

Definition parse_expr {E} (expr : list token -> option E) (m : meta) : res E :=
  match m with
  | MList ts => match expr ts with Some e => Ok e | None => Err EUnsupported end
  | _ => Err EUnsupported
  end.

(** derive/src/container.rs:757-773: the items of [asn1] on a field. *)
Definition field_item {E} (expr : list token -> option E) (parse : option E) (w : list N) (v : option (list token)) : res (option E) :=
  if bytes_eqb w (chars "parse") then
    match v with
    | Some ts => match expr ts with Some e => Ok (Some e) | None => Err EUnsupported end
    | None => Err EUnsupported
    end
  else Err EUnsupported.

(** derive/src/container.rs:741-754 *)
Definition set_tag {E} (k : tag_kind) (f : field_info E) (m : meta) : res (field_info E) :=
  match fi_tag f with
  | Some _ => Panic
  | None =>
      let* (c, n) := unwrap (parse_args parse_tag_args m) in
      Ok (mk_field (fi_default f) (fi_optional f) (Some (mk_tagging k c n)) (fi_map_err f) (fi_parse f))
  end.

(** derive/src/container.rs:725-778: one attribute. *)
Definition field_attr {E} (expr : list token -> option E) (f : field_info E) (a : attr) : res (field_info E) :=
  match at_name a with
  | None => Ok f
  | Some _ =>
      if is_ident a "map_err" then
        let* e := parse_expr expr (at_meta a) in
        Ok (mk_field (fi_default f) (fi_optional f) (fi_tag f) (Some e) (fi_parse f))
      else if is_ident a "default" then
        let* e := parse_expr expr (at_meta a) in
        Ok (mk_field (Some e) true (fi_tag f) (fi_map_err f) (fi_parse f))
      else if is_ident a "optional" then
        Ok (mk_field (fi_default f) true (fi_tag f) (fi_map_err f) (fi_parse f))
      else if is_ident a "tag_explicit" then set_tag KExplicit f (at_meta a)
      else if is_ident a "tag_implicit" then set_tag KImplicit f (at_meta a)
      else if is_ident a "asn1" then
        let* p := parse_nested_meta (field_item expr) (fi_parse f) (at_meta a) in
        Ok (mk_field (fi_default f) (fi_optional f) (fi_tag f) (fi_map_err f) p)
      else Ok f
  end.

(** derive/src/container.rs:713-792 ([FieldInfo::try_from]) *)
Fixpoint field_attrs {E} (expr : list token -> option E) (f : field_info E) (l : list attr) : res (field_info E) :=
  match l with
  | [] => Ok f
  | a :: l => let* f := field_attr expr f a in field_attrs expr f l
  end.
Definition field_try_from {E} (expr : list token -> option E) (l : list attr) : res (field_info E) :=
  field_attrs expr (mk_field None false None None None) l.

(** How the generated code reads a field (derive/src/container.rs:934-1010, [get_field_berparser]; 830-910, [get_field_parser]), by the
    kinds of field of MDerive.v and MParse.v.  An untagged field is read by the parser of its type, optional or not. *)
Inductive field_form (E : Type) :=
| FormCustom (parse : E)
| FormPlain | FormDefault (d : E)
| FormTagged (g : tagging) | FormTaggedOptional (g : tagging) | FormTaggedDefault (g : tagging) (d : E)
| FormTaggedRequired (g : tagging) (d : E).    (* tagged, a default, but not optional: does not occur *)
Arguments FormCustom {E}. Arguments FormPlain {E}. Arguments FormDefault {E}. Arguments FormTagged {E}. Arguments FormTaggedOptional {E}.
Arguments FormTaggedDefault {E}. Arguments FormTaggedRequired {E}.
Definition field_read {E} (f : field_info E) : field_form E :=
  match fi_parse f with
  | Some e => FormCustom e
  | None =>
      match fi_tag f with
      | Some g =>
          if fi_optional f then match fi_default f with Some d => FormTaggedDefault g d | None => FormTaggedOptional g end
          else match fi_default f with Some d => FormTaggedRequired g d | None => FormTagged g end
      | None => match fi_default f with Some d => FormDefault d | None => FormPlain end
      end
  end.

(** derive/src/container.rs:519-550, 609-633: the writers look at nothing but the tag. *)
Definition field_written {E} (f : field_info E) : option tagging := fi_tag f.

(** ** Containers *)

(** derive/src/asn1_type.rs:7-11 *)
Inductive rules := RBer | RDer.
Definition rules_eqb (a b : rules) : bool := match a, b with RBer, RBer | RDer, RDer => true | _, _ => false end.

(** derive/src/asn1_type.rs:93-107 *)
Definition parse_rules (w : list N) : res rules :=
  if bytes_eqb w (chars "BER") then Ok RBer
  else if bytes_eqb w (chars "DER") then Ok RDer
  else Err EUnsupported.
(** derive/src/asn1_type.rs:87-90 ([parse_multi]): separated by commas, the last comma optional. *)
Fixpoint parse_multi (ts : list token) : res (list rules) :=
  match ts with
  | [] => Ok []
  | Word w :: ts =>
      let* r := parse_rules w in
      match ts with
      | [] => Ok [r]
      | Punct c :: ts => if c =? 44 then let* l := parse_multi ts in Ok (r :: l) else Err EUnsupported
      | _ => Err EUnsupported
      end
  | _ => Err EUnsupported
  end.

(** derive/src/options.rs:4-13 *)
Record options := mk_options {
  op_debug : bool; op_error : option meta; op_tag_kind : option tag_kind; op_orig_input : bool;
  op_parsers : list rules; op_encoders : list rules }.

(** derive/src/options.rs:36-51: the items of [asn1] on a container. *)
Definition options_item (o : options) (w : list N) (v : option (list token)) : res options :=
  if bytes_eqb w (chars "parse") then
    match v with
    | Some ts => let* l := parse_multi ts in
                 Ok (mk_options (op_debug o) (op_error o) (op_tag_kind o) (op_orig_input o) l (op_encoders o))
    | None => Err EUnsupported
    end
  else if bytes_eqb w (chars "encode") then
    match v with
    | Some ts => let* l := parse_multi ts in
                 Ok (mk_options (op_debug o) (op_error o) (op_tag_kind o) (op_orig_input o) (op_parsers o) l)
    | None => Err EUnsupported
    end
  else if bytes_eqb w (chars "orig_input") then
    match v with
    | Some _ => Err EUnsupported
    | None => Ok (mk_options (op_debug o) (op_error o) (op_tag_kind o) true (op_parsers o) (op_encoders o))
    end
  else Err EUnsupported.

(** derive/src/options.rs:24-53: one attribute. *)
Definition options_attr (o : options) (a : attr) : res options :=
  if is_ident a "debug_derive" then
    Ok (mk_options true (op_error o) (op_tag_kind o) (op_orig_input o) (op_parsers o) (op_encoders o))
  else if is_ident a "tagged_explicit" then
    Ok (mk_options (op_debug o) (op_error o) (Some KExplicit) (op_orig_input o) (op_parsers o) (op_encoders o))
  else if is_ident a "tagged_implicit" then
    Ok (mk_options (op_debug o) (op_error o) (Some KImplicit) (op_orig_input o) (op_parsers o) (op_encoders o))
  else if is_ident a "error" then
    Ok (mk_options (op_debug o) (Some (at_meta a)) (op_tag_kind o) (op_orig_input o) (op_parsers o) (op_encoders o))
  else if is_ident a "asn1" then parse_nested_meta options_item o (at_meta a)
  else Ok o.

(** derive/src/options.rs:16-57 ([Options::from_struct]) *)
Fixpoint options_attrs (o : options) (l : list attr) : res options :=
  match l with
  | [] => Ok o
  | a :: l => let* o := options_attr o a in options_attrs o l
  end.
Definition options_from_struct (l : list attr) : res options :=
  options_attrs (mk_options false None None false [RBer; RDer] [RBer; RDer]) l.

(** derive/src/container.rs:270, 659; choice.rs:193, 281, 353; enumerated.rs:104, 163; alias.rs:131, 213:
    [options.parsers.contains(&asn1_type)], [options.encoders.contains(&asn1_type)]. *)
Definition has_parser (o : options) (r : rules) : bool := existsb (rules_eqb r) (op_parsers o).
Definition has_encoder (o : options) (r : rules) : bool := existsb (rules_eqb r) (op_encoders o).

(** ** Variants *)

(** derive/src/choice.rs:541-553 ([get_variant_tag]): the first attribute [tag]. *)
Fixpoint get_variant_tag (l : list attr) : res (option N) :=
  match l with
  | [] => Ok None
  | a :: l => if is_ident a "tag" then let* n := parse_args (parse_number (2 ^ 32)) (at_meta a) in Ok (Some n)
              else get_variant_tag l
  end.

(** derive/src/choice.rs:489-539 ([parse_tag_variants]): of each variant, the number of its fields and its attributes.  The numbers are
    given out by [choice_tags_from] (MDerive.v), here with the attributes read on the way. *)
Fixpoint variant_numbers (current : N) (acc : list N) (vs : list (list attr)) : res (list N) :=
  match vs with
  | [] => Ok acc
  | l :: vs =>
      let* o := get_variant_tag l in
      let tag := match o with Some t => t | None => current end in
      if existsb (N.eqb tag) acc then Err EUnsupported
      else if tag =? 2 ^ 32 - 1 then Panic
      else variant_numbers (tag + 1) (acc ++ [tag]) vs
  end.
Definition parse_tag_variants (vs : list (N * list attr)) : res (list N) :=
  if existsb (fun v => negb (fst v =? 1)) vs then Err EUnsupported
  else variant_numbers 0 [] (map snd vs).

(** derive/src/enumerated.rs:227-264 ([parse_enum_variants]): of each variant, the tokens of its discriminant. *)
Fixpoint enum_numbers (current : N) (vs : list (option (list token))) : res (list N) :=
  match vs with
  | [] => Ok []
  | v :: vs =>
      let* d := match v with
                | Some [Number n] => if n <? 2 ^ 32 then Ok n else Err EUnsupported
                | Some _ => Err EUnsupported
                | None => Ok current
                end in
      if d =? 2 ^ 32 - 1 then Panic
      else let* r := enum_numbers (d + 1) vs in Ok (d :: r)
  end.
Definition parse_enum_variants (vs : list (option (list token))) : res (list N) := enum_numbers 0 vs.

(** ** The shape of a struct *)

(** derive/src/container.rs:96-125 ([Container::from_datastruct]): [syn::Fields]; of a tuple struct, the tokens of the field types
    when they are paths. *)
Inductive shape := Named | Unnamed (types : list (option (list N))) | Unit.
Inductive container_type := CAlias | CSequence | CSet.
Fixpoint starts_with (p s : list N) : bool :=
  match p, s with
  | [], _ => true
  | a :: p, b :: s => (a =? b) && starts_with p s
  | _ :: _, [] => false
  end.
(** [is_any], or a panic. *)
Definition container_is_any (c : container_type) (s : shape) : res bool :=
  match c, s with
  | CAlias, Unnamed [t] =>
      match t with Some w => Ok (starts_with (chars "Any") w) | None => Ok false end
  | CAlias, Unnamed _ => Panic
  | CAlias, _ => Panic
  | _, Unnamed _ => Panic
  | _, _ => Ok false
  end.

(** ** Several derives on one declaration *)

(** derive/src/check_derive.rs:44-57 *)
Definition patterns : list string :=
  ["BerSequence"; "DerSequence"; "BerParserSequence"; "DerParserSequence"; "BerSet"; "DerSet"; "BerParserSet"; "DerParserSet";
   "BerParserAlias"; "DerParserAlias"; "BerParserChoice"; "DerParserChoice"]%string.

(** A [derive] attribute is the list of the paths in it: [Some w] for a single word.
    derive/src/check_derive.rs:59-64 *)
Definition other_derive (p : option (list N)) : bool :=
  match p with Some w => existsb (fun s => starts_with (chars s) w) patterns | None => false end.

(** derive/src/check_derive.rs:15-39: [below] are the [derive] attributes after the one being expanded. *)
Definition check_lastderive (below : list (list (option (list N)))) : bool :=
  negb (existsb (existsb other_derive) below).

(** The traits for which a macro generates an implementation.  [TTagged] stands for [Tagged], or [DynTagged] where that is generated
    instead: the two cannot be implemented together, as [DynTagged] is implemented for all [Tagged] types (src/tag.rs:131-150). *)
Inductive trait := TTagged | TTryFrom | TCheck | TFromDer | TParser (r : rules) | TEncoder (r : rules).

(** What is generated by each macro (derive/src/lib.rs:17-196): sequence.rs:50-79 (new derives), 108-143 and 145-183 (older readers),
    185-227, 229-253; alias.rs:90-110, 261-287, 289-322, 324-354, 356-389; choice.rs:61-81, 462-487; enumerated.rs:67-87.
    [o] are the options of the declaration, which the first four do not read. *)
Definition when {A} (b : bool) (x : A) : list A := if b then [x] else [].
Definition new_traits (o : options) : list trait :=
  [TTagged] ++ when (has_parser o RBer) (TParser RBer) ++ when (has_parser o RDer) (TParser RDer)
  ++ when (has_encoder o RBer) (TEncoder RBer) ++ when (has_encoder o RDer) (TEncoder RDer).
Definition derive_traits (o : options) (last : bool) (w : list N) : list trait :=
  let is s := bytes_eqb w (chars s) in
  if (is "BerSequence" || is "BerSet")%string then TTryFrom :: when last TTagged
  else if (is "DerSequence" || is "DerSet")%string then when last TTagged ++ [TTryFrom; TCheck; TFromDer]
  else if is "BerAlias"%string then [TTryFrom; TTagged]
  else if is "DerAlias"%string then [TTryFrom; TTagged; TCheck; TFromDer]
  else if (is "BerParserSequence" || is "BerParserSet" || is "BerParserAlias")%string then
    when last TTagged ++ when (has_parser o RBer) (TParser RBer)
  else if (is "DerParserSequence" || is "DerParserSet" || is "DerParserAlias")%string then
    when last TTagged ++ when (has_parser o RDer) (TParser RDer)
  else if is "BerParserChoice"%string then when last TTagged ++ when (has_parser o RBer) (TParser RBer)
  else if is "DerParserChoice"%string then when last TTagged ++ when (has_parser o RDer) (TParser RDer)
  else if (is "ToBerSequence" || is "ToBerSet")%string then when (has_encoder o RBer) (TEncoder RBer)
  else if (is "ToDerSequence" || is "ToDerSet")%string then when (has_encoder o RDer) (TEncoder RDer)
  else if (is "Sequence" || is "Set" || is "Choice" || is "Enumerated" || is "Alias")%string then new_traits o
  else [].

(** Everything generated for a declaration: a macro sees only the [derive] attributes below its own (derive/src/check_derive.rs:7-14).
    [name] tells which word a path resolves to. *)
Fixpoint declaration_traits (o : options) (lines : list (list (option (list N) * list N))) : list trait :=
  match lines with
  | [] => []
  | line :: below =>
      flat_map (fun p => derive_traits o (check_lastderive (map (map fst) below)) (snd p)) line ++ declaration_traits o below
  end.
