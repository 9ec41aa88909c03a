(** Model of object content, [Any], the object iterator and the generic parser entry points. *)
From Verif Require Import Base MHeader MEncode.

(** src/ber/parser.rs:8 *)
Definition MAX_RECURSION : nat := 50.

(** src/ber/parser.rs:105-116: the loop over sub-objects of an indefinite-length object.  [skip] is
    the recursive call.  [fuel] bounds the number of iterations. *)
Fixpoint skip_loop (skip : header -> bytes -> res (bytes * bool)) (fuel : nat) (i : bytes)
  : res (bytes * bool) :=
  match fuel with
  | O => Err EFuel
  | S f =>
      let* (i2, h2) := header_parse_ber i in
      let* (i3, eoc) := skip h2 i2 in
      if eoc then Ok (i3, false) else skip_loop skip f i3
  end.

(** src/ber/parser.rs:86-119 ([ber_skip_object_content]); [usize] depth as [nat]. *)
Fixpoint skip_content (max_depth : nat) (h : header) (i : bytes) : res (bytes * bool) :=
  match max_depth with
  | O => Err EBerMaxDepth
  | S d =>
      match h_length h with
      | Definite l =>
          if (l =? 0) && (h_tag h =? TagEndOfContent) then Ok (i, true)
          else let* (i, _) := take l i in Ok (i, false)
      | Indefinite =>
          let* _ := assert_constructed h in
          skip_loop (skip_content d) (S (length i)) i
      end
  end.

(** src/ber/parser.rs:24-42 ([BerMode::get_object_content]).  [i.span().start - start_i.span().start]
    is the number of bytes consumed; the [assert!] is explicit. *)
Definition ber_object_content (h : header) (i : bytes) (max_depth : nat) : res (bytes * bytes) :=
  let* (rem, _) := skip_content max_depth h i in
  let len := (length i - length rem)%nat in
  if is_definite (h_length h) then Ok (skipn len i, firstn len i)
  else if (len <? 2)%nat then Panic
  else Ok (rem, firstn (len - 2) i).

(** src/ber/parser.rs:48-53 *)
Definition ber_get_content (h : header) (i : bytes) : res (bytes * bytes) :=
  ber_object_content h i MAX_RECURSION.

(** src/ber/parser.rs:55-72, 78-83 ([DerMode::get_object_content], [der_get_content]). *)
Definition der_get_content (h : header) (i : bytes) : res (bytes * bytes) :=
  match h_length h with
  | Definite l => take l i
  | Indefinite => Err (EDerConstraintFailed DCIndefiniteLength)
  end.

(** src/header.rs:275-282 ([Header::parse_ber_content]). *)
Definition header_ber_content (h : header) (i : bytes) : res (bytes * bytes) :=
  ber_object_content h i 8.

(** src/header.rs:286-293 ([Header::parse_der_content]). *)
Definition header_der_content (h : header) (i : bytes) : res (bytes * bytes) :=
  let* _ := header_assert_definite h in
  der_get_content h i.

(** src/asn1_types/any.rs:20-23 *)
Record any := mk_any { any_header : header; any_data : bytes }.

(** src/asn1_types/any.rs:467-474 ([parse_ber_any], [Any::from_ber]). *)
Definition parse_ber_any (i : bytes) : res (bytes * any) :=
  let* (i, h) := header_parse_ber i in
  let* (i, data) := ber_object_content h i MAX_RECURSION in
  Ok (i, mk_any h data).

(** src/asn1_types/any.rs:476-487 ([parse_der_any], [Any::from_der] before the constraint check). *)
Definition parse_der_any (i : bytes) : res (bytes * any) :=
  let* (i, h) := header_parse_der i in
  let* _ := length_assert_definite (h_length h) in
  let* (i, data) := der_get_content h i in
  Ok (i, mk_any h data).

(** src/asn1_types/any.rs:496-516 ([Any::from_ber_content]). *)
Definition any_ber_content (h : header) (i : bytes) : res (bytes * any) :=
  let* (rem, data) :=
    match h_length h with
    | Definite l => take l i
    | Indefinite => take (blen i) i
    end in
  Ok (rem, mk_any h data).

(** src/asn1_types/any.rs:525-541 ([Any::from_der_content]). *)
Definition any_der_content (h : header) (i : bytes) : res (bytes * any) :=
  let* (rem, data) := der_get_content h i in
  Ok (rem, mk_any h data).

(** src/asn1_types/any.rs:543-549 *)
Definition any_check_constraints (a : any) : res unit :=
  length_assert_definite (h_length (any_header a)).

(** src/asn1_types/any.rs:587-602 ([ToBer for Any]). *)
Definition tober_any (a : any) : tober :=
  mk_tober EncGeneric (h_class (any_header a)) (h_constructed (any_header a)) (h_tag (any_header a))
           (Definite (blen (any_data a))) (Ok (any_data a, blen (any_data a))).

(** What a type provides to the parsers: [DynTagged::accept_tag], [BerParser::from_ber_content],
    [DerParser::from_der_content], [TryFrom<Any>] and [CheckDerConstraints]. *)
Record codec (T : Type) := mk_codec {
  accept_tag : N -> bool;
  ber_content : header -> bytes -> res (bytes * T);
  der_content : header -> bytes -> res (bytes * T);
  try_from_any : any -> res T;
  check_constraints : any -> res unit
}.
Arguments mk_codec {T}.
Arguments accept_tag {T}.
Arguments ber_content {T}.
Arguments der_content {T}.
Arguments try_from_any {T}.
Arguments check_constraints {T}.

(** src/asn1_types/any.rs:194-239 ([impl_tryfrom_any!]). *)
Definition default_try_from {T} (accept : N -> bool) (content : header -> bytes -> res (bytes * T))
    (a : any) : res T :=
  if accept (h_tag (any_header a)) then
    let* (_, x) := close (content (any_header a) (any_data a)) in Ok x
  else Err EUnexpectedTag.

(** src/from_ber.rs:98-116 ([BerParser::parse_ber]). *)
Definition parse_ber {T} (p : codec T) (i : bytes) : res (bytes * T) :=
  let* (rem, h) := header_parse_ber i in
  if accept_tag p (h_tag h) then
    let* (rem, data) := ber_object_content h rem MAX_RECURSION in
    let* (_, x) := ber_content p h data in
    Ok (rem, x)
  else Err EUnexpectedTag.

(** src/from_ber.rs:129-141 ([BerParser::parse_ber_optional]). *)
Definition parse_ber_optional {T} (p : codec T) (i : bytes) : res (bytes * option T) :=
  if blen i =? 0 then Ok (i, None)
  else
    let* (rem, h) := header_parse_ber i in
    if accept_tag p (h_tag h) then
      let* (rem, data) := ber_object_content h rem MAX_RECURSION in
      let* (_, x) := ber_content p h data in
      Ok (rem, Some x)
    else Ok (i, None).

(** src/from_ber.rs:144-160 ([BerParser::parse_ber_as_input]). *)
Definition parse_ber_as_input {T} (p : codec T) (i : bytes) : res (bytes * (header * bytes)) :=
  let* (rem, h) := header_parse_ber i in
  if accept_tag p (h_tag h) then
    let* (rem, data) := ber_object_content h rem MAX_RECURSION in
    Ok (rem, (h, data))
  else Err EUnexpectedTag.

(** src/from_der.rs:140-162 ([DerParser::parse_der]). *)
Definition parse_der {T} (p : codec T) (i : bytes) : res (bytes * T) :=
  let* (rem, h) := header_parse_der i in
  match h_length h with
  | Indefinite => Err EIndefiniteLengthUnexpected
  | Definite l =>
      if accept_tag p (h_tag h) then
        let* (rem, data) := take l rem in
        let* (_, x) := der_content p h data in
        Ok (rem, x)
      else Err EUnexpectedTag
  end.

(** src/from_der.rs:181-197 ([DerParser::parse_der_optional]). *)
Definition parse_der_optional {T} (p : codec T) (i : bytes) : res (bytes * option T) :=
  if blen i =? 0 then Ok (i, None)
  else
    let* (rem, h) := header_parse_der i in
    if accept_tag p (h_tag h) then
      match h_length h with
      | Indefinite => Err EIndefiniteLengthUnexpected
      | Definite l =>
          let* (rem, data) := take l rem in
          let* (_, x) := der_content p h data in
          Ok (rem, Some x)
      end
    else Ok (i, None).

(** src/from_der.rs:200-216 ([DerParser::parse_der_as_input]). *)
Definition parse_der_as_input {T} (p : codec T) (i : bytes) : res (bytes * (header * bytes)) :=
  let* (rem, h) := header_parse_der i in
  if accept_tag p (h_tag h) then
    let* (rem, data) := der_get_content h rem in
    Ok (rem, (h, data))
  else Err EUnexpectedTag.

(** src/from_ber.rs:59-77 (blanket [FromBer]). *)
Definition from_ber {T} (p : codec T) (i : bytes) : res (bytes * T) :=
  let* (rem, a) := parse_ber_any i in
  let* x := try_from_any p a in
  Ok (rem, x).

(** src/from_der.rs:93-114 (blanket [FromDer]). *)
Definition from_der {T} (p : codec T) (i : bytes) : res (bytes * T) :=
  let* (rem, a) := parse_der_any i in
  let* _ := check_constraints p a in
  let* x := try_from_any p a in
  Ok (rem, x).

(** [Any] itself as a type (src/asn1_types/any.rs:489-575); [TryFrom<Any> for Any] is the identity. *)
Definition any_codec : codec any :=
  mk_codec (fun _ => true) any_ber_content any_der_content (fun a => Ok a) any_check_constraints.

Definition any_parse_ber := parse_ber any_codec.
Definition any_parse_der := parse_der any_codec.

(** src/asn1_types/iterator.rs:27-34: state of [AnyIterator]. *)
Record iter := mk_iter { it_input : bytes; it_has_error : bool }.

(** src/asn1_types/iterator.rs:41-47 *)
Definition iter_new (i : bytes) : iter := mk_iter i false.

(** src/asn1_types/iterator.rs:177-202, 204-229 ([next]); [p] is [Any::parse_ber] or
    [Any::parse_der].  The outcome [None] is the end of the iteration. *)
Definition iter_next (p : bytes -> res (bytes * any)) (s : iter) : option (res (bytes * any)) * iter :=
  if it_has_error s || (blen (it_input s) =? 0) then (None, s)
  else match p (it_input s) with
       | Ok (rem, obj) =>
           (Some (Ok (firstn (length (it_input s) - length rem) (it_input s), obj)), mk_iter rem false)
       | Err e => (Some (Err e), mk_iter (it_input s) true)
       | Incomplete n => (Some (Err (EIncomplete n)), mk_iter (it_input s) true)
       | Panic => (Some Panic, mk_iter (it_input s) true)
       end.

(** [n] calls to [next]. *)
Fixpoint iter_calls (p : bytes -> res (bytes * any)) (n : nat) (s : iter)
  : list (option (res (bytes * any))) * iter :=
  match n with
  | O => ([], s)
  | S n => let (x, s1) := iter_next p s in
           let (xs, s2) := iter_calls p n s1 in
           (x :: xs, s2)
  end.

(** src/asn1_types/iterator.rs:53-63, 117-127 and 89-110, 153-174 ([try_collect],
    [try_parse_collect]): consume the iterator, converting each object with [f]; stop at the first
    error.  [fuel] bounds the number of objects. *)
Fixpoint collect_loop {T} (p : bytes -> res (bytes * any)) (f : any -> res T) (fuel : nat) (i : bytes)
  : res (bytes * list T) :=
  match fuel with
  | O => Err EFuel
  | S fuel =>
      if blen i =? 0 then Ok (i, [])
      else
        let* (rem, a) := close (p i) in
        let* x := f a in
        let* (r, xs) := collect_loop p f fuel rem in
        Ok (r, x :: xs)
  end.

Definition try_collect (p : bytes -> res (bytes * any)) (i : bytes) : res (bytes * list any) :=
  collect_loop p (fun a => Ok a) (S (length i)) i.

Definition convert_item {T} (accept : N -> bool) (content : header -> bytes -> res (bytes * T)) (a : any)
  : res T :=
  if accept (h_tag (any_header a)) then
    let* (_, x) := content (any_header a) (any_data a) in Ok x
  else Err EUnexpectedTag.
