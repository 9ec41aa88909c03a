(** Model of [Input] and of the parsers with their byte ranges: the functions of MHeader, MBer and MCont that handle
    an [Input], with spans and with the location stored in errors. *)
From Verif Require Import Base MHeader MEncode MBer MInt MCont.

(** src/input.rs:12-16.  [usize] is 64 bits. *)
Record input := mk_input { in_data : bytes; in_start : N; in_end : N }.

(** nom's [IResult] with [BerError<Input>]: an error carries its location (src/error.rs:102-107). *)
Inductive sres (A : Type) : Type :=
| SOk (a : A)
| SErr (at_ : input) (e : error)
| SIncomplete (n : N)
| SPanic.
Arguments SOk {A}.
Arguments SErr {A}.
Arguments SIncomplete {A}.
Arguments SPanic {A}.

Definition sbind {A B} (r : sres A) (f : A -> sres B) : sres B :=
  match r with
  | SOk a => f a
  | SErr i e => SErr i e
  | SIncomplete n => SIncomplete n
  | SPanic => SPanic
  end.
Notation "'let+' x ':=' r 'in' k" := (sbind r (fun x => k))
  (at level 200, x pattern, r at level 100, k at level 200, right associativity).
(** [map_err(BerError::convert(i))] applied to a result without location. *)
Definition at_input {A} (i : input) (r : res A) : sres A :=
  match r with Ok a => SOk a | Err e => SErr i e | Incomplete n => SIncomplete n | Panic => SPanic end.

(** [usize] addition and subtraction (overflow panics). *)
Definition usize_add (a b : N) : sres N := if a + b <? 2 ^ 64 then SOk (a + b) else SPanic.
Definition usize_sub (a b : N) : sres N := if b <=? a then SOk (a - b) else SPanic.

(** src/input.rs:25-32 ([from_slice]). *)
Definition from_slice (d : bytes) : input := mk_input d 0 (blen d).
(** src/input.rs:141-148 ([take]); slicing past the end panics. *)
Definition in_take (i : input) (n : N) : sres input :=
  if blen (in_data i) <? n then SPanic
  else let+ e := usize_add (in_start i) n in SOk (mk_input (firstn (N.to_nat n) (in_data i)) (in_start i) e).
(** src/input.rs:150-157 ([take_from]). *)
Definition in_take_from (i : input) (n : N) : sres input :=
  if blen (in_data i) <? n then SPanic
  else let+ s := usize_add (in_start i) n in SOk (mk_input (skipn (N.to_nat n) (in_data i)) s (in_end i)).
(** src/input.rs:159-161 ([take_split]). *)
Definition in_take_split (i : input) (n : N) : sres (input * input) :=
  let+ rem := in_take_from i n in
  let+ x := in_take i n in
  SOk (rem, x).

(** nom's [bytes::streaming::take], with [slice_index] of src/input.rs:178-184. *)
Definition s_take (n : N) (i : input) : sres (input * input) :=
  if n <=? blen (in_data i) then in_take_split i n else SIncomplete (n - blen (in_data i)).
(** nom's [number::streaming::be_u8], with [iter_elements] of src/input.rs:170-172. *)
Definition s_be_u8 (i : input) : sres (input * N) :=
  match in_data i with
  | [] => SIncomplete 1
  | b :: _ => let+ rem := in_take_from i 1 in SOk (rem, b)
  end.

(** ** Headers *)

(** src/header.rs:20-37: the fields of MHeader, and [raw_header] with its span. *)
Record sheader := mk_sheader { sh_fields : header; sh_raw : option input }.

(** src/header.rs:508-533; [i0] is the location of errors. *)
Fixpoint s_tag_loop (fuel : nat) (i0 : input) (rem : input) (c count : N) : sres (input * N * N) :=
  match fuel with
  | O => SErr i0 EFuel
  | S fuel =>
      match s_be_u8 rem with
      | SOk (r, b) =>
          if 5 <? count then SErr i0 EInvalidTag
          else
            let c' := N.lor (N.shiftl c 7 mod 2 ^ 32) (N.land b 0x7f) in
            if N.land b 0x80 =? 0 then SOk (r, c', count + 1)
            else s_tag_loop fuel i0 r c' (count + 1)
      | SPanic => SPanic
      | _ => SErr i0 EInvalidTag
      end
  end.

(** src/header.rs:538-572 *)
Definition s_parse_length (i0 : input) (constructed : bool) (rem : input) : sres (input * blength) :=
  let+ (rem, len_b0) := s_be_u8 rem in
  if len_b0 =? 0x80 then
    if constructed then SOk (rem, Indefinite) else SErr i0 EIndefiniteLengthUnexpected
  else if N.land len_b0 0x80 =? 0 then SOk (rem, Definite len_b0)
  else if len_b0 =? 0xff then SErr i0 EInvalidLength
  else
    let+ (r, len_bytes) := s_take (N.land len_b0 0x7f) rem in
    match bytes_to_u64 (in_data len_bytes) with
    | Some l => SOk (r, Definite l)
    | None => SErr i0 EInvalidLength
    end.

(** src/header.rs:482-581 ([parse_header], [Header::parse_ber]).  The loop reads at most six octets. *)
Definition s_parse_header (i0 : input) : sres (input * sheader) :=
  let+ (rem, b0) := s_be_u8 i0 in
  match class_try_from (N.shiftr b0 6) with
  | None => SPanic
  | Some cls =>
      let constructed := negb (N.land b0 0x20 =? 0) in
      let tag0 := N.land b0 0x1f in
      let+ (rem, tag, count) :=
        (if tag0 =? 0x1f then s_tag_loop 7 i0 rem 0 1 else SOk (rem, tag0, 1)) in
      if blen (in_data i0) <? count then SPanic
      else
        let raw_tag := firstn (N.to_nat count) (in_data i0) in
        let+ (rem, len) := s_parse_length i0 constructed rem in
        let+ raw_header_len := usize_sub (in_start rem) (in_start i0) in
        let+ raw_header := in_take i0 raw_header_len in
        SOk (rem, mk_sheader (mk_header cls constructed tag len (Some raw_tag) (Some (in_data raw_header))) (Some raw_header))
  end.

(** src/header.rs:351-363 ([Header::parse_der]). *)
Definition s_parse_header_der (i : input) : sres (input * sheader) :=
  let+ (rem, h) := s_parse_header i in
  if is_definite (h_length (sh_fields h)) then SOk (rem, h) else SErr i (EDerConstraintFailed DCIndefiniteLength).

(** ** Contents *)

(** src/ber/parser.rs:105-116 *)
Fixpoint s_skip_loop (skip : sheader -> input -> sres (input * bool)) (fuel : nat) (i : input) : sres (input * bool) :=
  match fuel with
  | O => SErr i EFuel
  | S f =>
      let+ (i2, h2) := s_parse_header i in
      let+ (i3, eoc) := skip h2 i2 in
      if eoc then SOk (i3, false) else s_skip_loop skip f i3
  end.

(** src/ber/parser.rs:86-119 *)
Fixpoint s_skip_content (max_depth : nat) (h : sheader) (i : input) : sres (input * bool) :=
  match max_depth with
  | O => SErr i EBerMaxDepth
  | S d =>
      match h_length (sh_fields h) with
      | Definite l =>
          if (l =? 0) && (h_tag (sh_fields h) =? TagEndOfContent) then SOk (i, true)
          else let+ (i, _) := s_take l i in SOk (i, false)
      | Indefinite =>
          let+ _ := at_input i (assert_constructed (sh_fields h)) in
          s_skip_loop (s_skip_content d) (S (length (in_data i))) i
      end
  end.

(** src/ber/parser.rs:24-42 *)
Definition s_ber_object_content (h : sheader) (i : input) (max_depth : nat) : sres (input * input) :=
  let+ (rem, _) := s_skip_content max_depth h i in
  let+ len := usize_sub (in_start rem) (in_start i) in
  if is_definite (h_length (sh_fields h)) then in_take_split i len
  else if len <? 2 then SPanic
  else let+ content := in_take i (len - 2) in SOk (rem, content).

(** src/ber/parser.rs:55-72 *)
Definition s_der_get_content (h : sheader) (i : input) : sres (input * input) :=
  match h_length (sh_fields h) with
  | Definite l => s_take l i
  | Indefinite => SErr i (EDerConstraintFailed DCIndefiniteLength)
  end.

(** ** Objects *)

(** src/asn1_types/any.rs:18-23 *)
Record sany := mk_sany { sa_header : sheader; sa_data : input }.

(** src/asn1_types/any.rs:467-474 *)
Definition s_parse_ber_any (i : input) : sres (input * sany) :=
  let+ (i, h) := s_parse_header i in
  let+ (i, data) := s_ber_object_content h i MAX_RECURSION in
  SOk (i, mk_sany h data).

(** src/asn1_types/any.rs:476-487 *)
Definition s_parse_der_any (i : input) : sres (input * sany) :=
  let+ (r, h) := s_parse_header_der i in
  let+ _ := at_input i (length_assert_definite (h_length (sh_fields h))) in
  let+ (r, data) := s_der_get_content h r in
  SOk (r, mk_sany h data).

(** What a type provides: [accept_tag], [from_ber_content], [from_der_content]. *)
Record sparser (T : Type) := mk_sparser {
  sp_accept : N -> bool;
  sp_ber : sheader -> input -> sres (input * T);
  sp_der : sheader -> input -> sres (input * T)
}.
Arguments mk_sparser {T}.
Arguments sp_accept {T}.
Arguments sp_ber {T}.
Arguments sp_der {T}.

(** src/from_ber.rs:98-116 *)
Definition s_parse_ber {T} (p : sparser T) (i : input) : sres (input * T) :=
  let+ (rem, h) := s_parse_header i in
  if sp_accept p (h_tag (sh_fields h)) then
    let+ (rem, data) := s_ber_object_content h rem MAX_RECURSION in
    let+ (_, x) := sp_ber p h data in
    SOk (rem, x)
  else SErr i EUnexpectedTag.
(** src/from_ber.rs:129-141 *)
Definition s_parse_ber_optional {T} (p : sparser T) (i : input) : sres (input * option T) :=
  if blen (in_data i) =? 0 then SOk (i, None)
  else
    let+ (rem, h) := s_parse_header i in
    if sp_accept p (h_tag (sh_fields h)) then
      let+ (rem, data) := s_ber_object_content h rem MAX_RECURSION in
      let+ (_, x) := sp_ber p h data in
      SOk (rem, Some x)
    else SOk (i, None).
(** src/from_ber.rs:144-160 *)
Definition s_parse_ber_as_input {T} (p : sparser T) (i : input) : sres (input * (sheader * input)) :=
  let+ (rem, h) := s_parse_header i in
  if sp_accept p (h_tag (sh_fields h)) then
    let+ (rem, data) := s_ber_object_content h rem MAX_RECURSION in
    SOk (rem, (h, data))
  else SErr i EUnexpectedTag.
(** src/from_der.rs:140-162 *)
Definition s_parse_der {T} (p : sparser T) (i : input) : sres (input * T) :=
  let+ (rem, h) := s_parse_header_der i in
  match h_length (sh_fields h) with
  | Indefinite => SErr i EIndefiniteLengthUnexpected
  | Definite l =>
      if sp_accept p (h_tag (sh_fields h)) then
        let+ (rem, data) := s_take l rem in
        let+ (_, x) := sp_der p h data in
        SOk (rem, x)
      else SErr i EUnexpectedTag
  end.
(** src/from_der.rs:181-197 *)
Definition s_parse_der_optional {T} (p : sparser T) (i : input) : sres (input * option T) :=
  if blen (in_data i) =? 0 then SOk (i, None)
  else
    let+ (rem, h) := s_parse_header_der i in
    if sp_accept p (h_tag (sh_fields h)) then
      match h_length (sh_fields h) with
      | Indefinite => SErr i EIndefiniteLengthUnexpected
      | Definite l =>
          let+ (rem, data) := s_take l rem in
          let+ (_, x) := sp_der p h data in
          SOk (rem, Some x)
      end
    else SOk (i, None).
(** src/from_der.rs:200-216 *)
Definition s_parse_der_as_input {T} (p : sparser T) (i : input) : sres (input * (sheader * input)) :=
  let+ (rem, h) := s_parse_header_der i in
  if sp_accept p (h_tag (sh_fields h)) then
    let+ (rem, data) := s_der_get_content h rem in
    SOk (rem, (h, data))
  else SErr i EUnexpectedTag.

(** src/asn1_types/any.rs:496-516 and 525-541 *)
Definition s_any_ber_content (h : sheader) (i : input) : sres (input * sany) :=
  let+ (rem, data) :=
    match h_length (sh_fields h) with
    | Definite l => s_take l i
    | Indefinite => s_take (blen (in_data i)) i
    end in
  SOk (rem, mk_sany h data).
Definition s_any_der_content (h : sheader) (i : input) : sres (input * sany) :=
  let+ (rem, data) := s_der_get_content h i in
  SOk (rem, mk_sany h data).
Definition s_any_parser : sparser sany := mk_sparser (fun _ => true) s_any_ber_content s_any_der_content.

(** ** Iteration *)

(** src/asn1_types/iterator.rs:27-47 *)
Record siter := mk_siter { si_input : input; si_has_error : bool }.
Definition siter_new (i : input) : siter := mk_siter i false.

(** src/asn1_types/iterator.rs:177-202, 204-229 *)
Definition s_iter_next (p : input -> sres (input * sany)) (s : siter) : option (sres (input * sany)) * siter :=
  if si_has_error s || (blen (in_data (si_input s)) =? 0) then (None, s)
  else match p (si_input s) with
       | SOk (rem, obj) =>
           match (let+ n := usize_sub (in_start rem) (in_start (si_input s)) in in_take (si_input s) n) with
           | SOk data => (Some (SOk (data, obj)), mk_siter rem false)
           | _ => (Some SPanic, s)
           end
       | SErr i e => (Some (SErr i e), mk_siter (si_input s) true)
       | SIncomplete n => (Some (SErr (si_input s) (EIncomplete n)), mk_siter (si_input s) true)
       | SPanic => (Some SPanic, mk_siter (si_input s) true)
       end.

(** An error of the iterator: an incomplete object becomes an error at the current position. *)
Definition s_close {A} (i : input) (r : sres A) : sres A :=
  match r with SIncomplete n => SErr i (EIncomplete n) | _ => r end.

(** src/asn1_types/iterator.rs:89-110, 153-174 *)
Fixpoint s_collect_loop {T} (p : input -> sres (input * sany)) (f : sany -> sres T) (fuel : nat) (i : input)
  : sres (input * list T) :=
  match fuel with
  | O => SErr i EFuel
  | S fuel =>
      if blen (in_data i) =? 0 then SOk (i, [])
      else
        let+ (rem, a) := s_close i (p i) in
        let+ x := f a in
        let+ (r, xs) := s_collect_loop p f fuel rem in
        SOk (r, x :: xs)
  end.
Definition s_convert_item {T} (accept : N -> bool) (content : sheader -> input -> sres (input * T)) (a : sany) : sres T :=
  if accept (h_tag (sh_fields (sa_header a))) then
    let+ (_, x) := content (sa_header a) (sa_data a) in SOk x
  else SErr (sa_data a) EUnexpectedTag.

(** src/asn1_types/sequence/vec.rs:70-87 and 97-114 *)
Definition s_vec_ber {T} (p : sparser T) (h : sheader) (i : input) : sres (input * list T) :=
  let+ _ := at_input i (assert_constructed (sh_fields h)) in
  if blen (in_data i) =? 0 then SOk (i, [])
  else s_collect_loop (s_parse_ber s_any_parser) (s_convert_item (sp_accept p) (sp_ber p)) (S (length (in_data i))) i.
Definition s_vec_der {T} (p : sparser T) (h : sheader) (i : input) : sres (input * list T) :=
  let+ _ := at_input i (assert_constructed (sh_fields h)) in
  if blen (in_data i) =? 0 then SOk (i, [])
  else s_collect_loop (s_parse_der s_any_parser) (s_convert_item (sp_accept p) (sp_der p)) (S (length (in_data i))) i.
Definition s_vec_parser {T} (p : sparser T) : sparser (list T) :=
  mk_sparser (is_tag TagSequence) (s_vec_ber p) (s_vec_der p).

(** src/asn1_types/tagged/explicit.rs:57-88 and 100-131 *)
Definition s_explicit_content {T} (c : class) (t : N) (parse : input -> sres (input * T)) (h : sheader) (i : input)
  : sres (input * T) :=
  let+ _ := at_input i (assert_constructed (sh_fields h)) in
  let+ _ := at_input i (check_class (sh_fields h) c) in
  let+ _ := at_input i (check_tag (sh_fields h) t) in
  parse i.
Definition s_explicit_parser {T} (c : class) (t : N) (p : sparser T) : sparser T :=
  mk_sparser (is_tag t) (s_explicit_content c t (s_parse_ber p)) (s_explicit_content c t (s_parse_der p)).

(** A type whose values hold no [Input], from its content parsers without spans; they return the rest of the
    content, which every caller drops.  The location of its errors is taken to be the content: the impls use
    [input] or a part of it. *)
Definition s_plain_content {T} (f : header -> bytes -> res (bytes * T)) (h : sheader) (i : input) : sres (input * T) :=
  let+ (_, x) := at_input i (f (sh_fields h) (in_data i)) in SOk (i, x).
Definition s_plain_parser {T} (p : parser T) : sparser T :=
  mk_sparser (ps_accept p) (s_plain_content (ps_ber_content p)) (s_plain_content (ps_der_content p)).

(** ** Slices without spans

    src/from_ber.rs:164-175 ([wrap_ber_parser]): a slice becomes an input which starts at 0. *)
Definition s_wrap {T} (f : input -> sres (input * T)) (d : bytes) : res (bytes * T) :=
  match f (from_slice d) with
  | SOk (rem, x) => Ok (in_data rem, x)
  | SErr _ e => Err e
  | SIncomplete n => Incomplete n
  | SPanic => Panic
  end.
(** src/asn1_types/any.rs:489-494 ([Any::from_ber]). *)
Definition s_any_from_ber (d : bytes) : res (bytes * sany) := s_wrap s_parse_ber_any d.
(** src/asn1_types/sequence/vec.rs:49-61, src/asn1_types/sequence/iterator.rs:53-79 and src/from_ber.rs:59-77:
    [Vec<Any>::from_ber]; each element is read by [Any::from_ber] from a slice. *)
Definition s_vec_any_from_ber (d : bytes) : res (bytes * list sany) :=
  let* (rem, a) := s_any_from_ber d in
  let* _ := assert_tag (sh_fields (sa_header a)) TagSequence in
  let* _ := assert_constructed (sh_fields (sa_header a)) in
  let* v := seq_items s_any_from_ber (in_data (sa_data a)) in
  Ok (rem, v).
