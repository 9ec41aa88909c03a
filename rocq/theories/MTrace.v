(** Model of logging (features [debug] and [trace]): the parsers of MSpan with what they write to the log. *)
From Verif Require Import Base MHeader MEncode MBer MInt MCont MColl MSpan.

(** Cargo.toml:45-48: the features; [cf_asserts] is whether the build has debug assertions and overflow checks. *)
Record config := mk_config { cf_debug : bool; cf_trace : bool; cf_asserts : bool }.
(** Feature [trace] enables [debug]. *)
Definition debugging (c : config) : bool := cf_debug c || cf_trace c.
Definition tracing (c : config) : bool := cf_trace c.

(** The messages ([msg]) of the call sites; [AtType] is the name of the type. *)
Inductive site :=
| AtHeader | AtAny | AtBerParse | AtBerContent | AtBerInput | AtDerParse | AtDerContent | AtDerInput
| AtInteger | AtOptionBer | AtOptionDer | AtType.

(** A line of the log (one call of [log::trace!] or [log::error!]) by its arguments; type names are left out. *)
Inductive line :=
| LEnter (s : site) (start len : N)
| LParsed (s : site) (start count remaining : N)
| LFailed (s : site) (start : N) (e : error)
| LMissing (s : site) (start needed : N)
| LDump (text : bytes)
| LContinued
| LGeneric (s : site)
| LGenericFailed (s : site)
| LLocation (s : site)
| LConversion.

(** A result with the lines written. *)
Definition logged (A : Type) : Type := (list line * A)%type.
Definition lres (A : Type) : Type := logged (sres A).
Definition silent {A} (r : A) : logged A := ([], r).
Definition lbind {A B} (m : lres A) (f : A -> lres B) : lres B :=
  match snd m with
  | SOk a => (fst m ++ fst (f a), snd (f a))
  | SErr i e => (fst m, SErr i e)
  | SIncomplete n => (fst m, SIncomplete n)
  | SPanic => (fst m, SPanic)
  end.
Notation "'let!' x ':=' r 'in' k" := (lbind r (fun x => k))
  (at level 200, x pattern, r at level 100, k at level 200, right associativity).

(** ** src/debug.rs *)

(** src/debug.rs:70 ([CHARS]); the index is at most 15. *)
Definition hex_char (n : N) : N :=
  nth (N.to_nat n) [48; 49; 50; 51; 52; 53; 54; 55; 56; 57; 97; 98; 99; 100; 101; 102] 0.
(** src/debug.rs:74-78 *)
Fixpoint hex_loop (d : bytes) (s : bytes) : bytes :=
  match d with
  | [] => s
  | b :: d => hex_loop d (((s ++ [hex_char (N.shiftr b 4)]) ++ [hex_char (N.land b 0xf)]) ++ [32])
  end.
(** src/debug.rs:67-84 ([log_error_hex_dump]); [pop] on an empty string does nothing. *)
Definition hex_dump (d : bytes) (max_len : N) : list line :=
  let m := N.min (blen d) max_len in
  LDump (removelast (hex_loop (firstn (N.to_nat m) d) [])) :: (if max_len <? blen d then [LContinued] else []).

(** src/debug.rs:151-161 and 163-214 ([trace_input]).  [rem.start() - start] wraps around in a build without
    overflow checks; with them the assertion has already failed. *)
Definition trace_input {T} (c : config) (s : site) (f : input -> lres (input * T)) (i : input) : lres (input * T) :=
  if debugging c then
    let start := in_start i in
    let enter := if tracing c then [LEnter s start (blen (in_data i))] else [] in
    let m := f i in
    match snd m with
    | SOk (rem, x) =>
        if cf_asserts c && (in_start rem <? start) then (enter ++ fst m, SPanic)
        else
          (enter ++ fst m
             ++ (if tracing c then [LParsed s start ((in_start rem + 2 ^ 64 - start) mod 2 ^ 64) (blen (in_data rem))] else []),
           SOk (rem, x))
    | SErr at_ e => (enter ++ fst m ++ LFailed s start e :: hex_dump (in_data i) 16, SErr at_ e)
    | SIncomplete n => (enter ++ fst m ++ LMissing s start n :: hex_dump (in_data i) 16, SIncomplete n)
    | SPanic => (enter ++ fst m, SPanic)
    end
  else f i.

(** src/debug.rs:86-112 ([trace_generic]). *)
Definition trace_generic {I O} (c : config) (s : site) (f : I -> logged (res O)) (i : I) : logged (res O) :=
  if debugging c then
    let enter := if tracing c then [LGeneric s] else [] in
    let m := f i in
    match snd m with
    | Err _ | Incomplete _ => (enter ++ fst m ++ [LGenericFailed s], snd m)
    | Ok _ => (enter ++ fst m ++ (if tracing c then [LGeneric s] else []), snd m)
    | Panic => (enter ++ fst m, Panic)
    end
  else f i.

(** src/debug.rs:114-149 ([trace]); the count is computed for the log only. *)
Definition trace {T} (c : config) (s : site) (f : bytes -> logged (res (bytes * T))) (i : bytes) : logged (res (bytes * T)) :=
  if debugging c then
    let enter := if tracing c then [LEnter s 0 (blen i)] else [] in
    let m := f i in
    match snd m with
    | Ok (rem, x) =>
        if tracing c then
          if cf_asserts c && (blen i <? blen rem) then (enter ++ fst m, Panic)
          else (enter ++ fst m ++ [LParsed s 0 ((blen i + 2 ^ 64 - blen rem) mod 2 ^ 64) (blen rem)], snd m)
        else (enter ++ fst m, snd m)
    | Panic => (enter ++ fst m, Panic)
    | _ => (enter ++ fst m ++ LLocation s :: hex_dump i 16, snd m)
    end
  else f i.

(** ** The parsers *)

Section traced.
Variable c : config.

(** src/header.rs:331-333, 351-363 (both messages say [Header::parse_ber]). *)
Definition t_header : input -> lres (input * sheader) := trace_input c AtHeader (fun i => silent (s_parse_header i)).
Definition t_header_der : input -> lres (input * sheader) := trace_input c AtHeader (fun i => silent (s_parse_header_der i)).

(** src/ber/parser.rs:105-116 *)
Fixpoint t_skip_loop (skip : sheader -> input -> lres (input * bool)) (fuel : nat) (i : input) : lres (input * bool) :=
  match fuel with
  | O => silent (SErr i EFuel)
  | S f =>
      let! (i2, h2) := t_header i in
      let! (i3, eoc) := skip h2 i2 in
      if eoc then silent (SOk (i3, false)) else t_skip_loop skip f i3
  end.
(** src/ber/parser.rs:86-119 *)
Fixpoint t_skip_content (max_depth : nat) (h : sheader) (i : input) : lres (input * bool) :=
  match max_depth with
  | O => silent (SErr i EBerMaxDepth)
  | S d =>
      match h_length (sh_fields h) with
      | Definite l =>
          if (l =? 0) && (h_tag (sh_fields h) =? TagEndOfContent) then silent (SOk (i, true))
          else let! (i, _) := silent (s_take l i) in silent (SOk (i, false))
      | Indefinite =>
          let! _ := silent (at_input i (assert_constructed (sh_fields h))) in
          t_skip_loop (t_skip_content d) (S (length (in_data i))) i
      end
  end.
(** src/ber/parser.rs:24-42 *)
Definition t_ber_object_content (h : sheader) (i : input) (max_depth : nat) : lres (input * input) :=
  let! (rem, _) := t_skip_content max_depth h i in
  silent (let+ len := usize_sub (in_start rem) (in_start i) in
          if is_definite (h_length (sh_fields h)) then in_take_split i len
          else if len <? 2 then SPanic
          else let+ content := in_take i (len - 2) in SOk (rem, content)).

(** src/asn1_types/any.rs:467-474 *)
Definition t_parse_ber_any : input -> lres (input * sany) :=
  trace_input c AtAny (fun i =>
    let! (i, h) := t_header i in
    let! (i, data) := t_ber_object_content h i MAX_RECURSION in
    silent (SOk (i, mk_sany h data))).
(** src/asn1_types/any.rs:476-487 *)
Definition t_parse_der_any : input -> lres (input * sany) :=
  trace_input c AtAny (fun i =>
    let! (r, h) := t_header_der i in
    let! _ := silent (at_input i (length_assert_definite (h_length (sh_fields h)))) in
    let! (r, data) := silent (s_der_get_content h r) in
    silent (SOk (r, mk_sany h data))).

(** What a type provides. *)
Record tparser (T : Type) := mk_tparser {
  tp_accept : N -> bool;
  tp_ber : sheader -> input -> lres (input * T);
  tp_der : sheader -> input -> lres (input * T)
}.
Arguments mk_tparser {T}.
Arguments tp_accept {T}.
Arguments tp_ber {T}.
Arguments tp_der {T}.

(** src/from_ber.rs:98-116 *)
Definition t_parse_ber {T} (p : tparser T) : input -> lres (input * T) :=
  trace_input c AtBerParse (fun i =>
    let! (rem, h) := t_header i in
    if tp_accept p (h_tag (sh_fields h)) then
      let! (rem, data) := t_ber_object_content h rem MAX_RECURSION in
      let! (_, x) := trace_input c AtBerContent (tp_ber p h) data in
      silent (SOk (rem, x))
    else silent (SErr i EUnexpectedTag)).
(** src/from_ber.rs:129-141 *)
Definition t_parse_ber_optional {T} (p : tparser T) (i : input) : lres (input * option T) :=
  if blen (in_data i) =? 0 then silent (SOk (i, None))
  else
    let! (rem, h) := t_header i in
    if tp_accept p (h_tag (sh_fields h)) then
      let! (rem, data) := t_ber_object_content h rem MAX_RECURSION in
      let! (_, x) := tp_ber p h data in
      silent (SOk (rem, Some x))
    else silent (SOk (i, None)).
(** src/from_ber.rs:144-160 *)
Definition t_parse_ber_as_input {T} (p : tparser T) : input -> lres (input * (sheader * input)) :=
  trace_input c AtBerInput (fun i =>
    let! (rem, h) := t_header i in
    if tp_accept p (h_tag (sh_fields h)) then
      let! (rem, data) := t_ber_object_content h rem MAX_RECURSION in
      silent (SOk (rem, (h, data)))
    else silent (SErr i EUnexpectedTag)).
(** src/from_der.rs:140-162 *)
Definition t_parse_der {T} (p : tparser T) : input -> lres (input * T) :=
  trace_input c AtDerParse (fun i =>
    let! (rem, h) := t_header_der i in
    match h_length (sh_fields h) with
    | Indefinite => silent (SErr i EIndefiniteLengthUnexpected)
    | Definite l =>
        if tp_accept p (h_tag (sh_fields h)) then
          let! (rem, data) := silent (s_take l rem) in
          let! (_, x) := trace_input c AtDerContent (tp_der p h) data in
          silent (SOk (rem, x))
        else silent (SErr i EUnexpectedTag)
    end).
(** src/from_der.rs:181-197 *)
Definition t_parse_der_optional {T} (p : tparser T) (i : input) : lres (input * option T) :=
  if blen (in_data i) =? 0 then silent (SOk (i, None))
  else
    let! (rem, h) := t_header_der i in
    if tp_accept p (h_tag (sh_fields h)) then
      match h_length (sh_fields h) with
      | Indefinite => silent (SErr i EIndefiniteLengthUnexpected)
      | Definite l =>
          let! (rem, data) := silent (s_take l rem) in
          let! (_, x) := tp_der p h data in
          silent (SOk (rem, Some x))
      end
    else silent (SOk (i, None)).
(** src/from_der.rs:200-216 *)
Definition t_parse_der_as_input {T} (p : tparser T) : input -> lres (input * (sheader * input)) :=
  trace_input c AtDerInput (fun i =>
    let! (rem, h) := t_header_der i in
    if tp_accept p (h_tag (sh_fields h)) then
      let! (rem, data) := silent (s_der_get_content h rem) in
      silent (SOk (rem, (h, data)))
    else silent (SErr i EUnexpectedTag)).

(** Content parsers that log nothing themselves (src/asn1_types/any.rs:496-541 and the types of MSpan's
    [s_plain_parser]). *)
Definition quiet {T} (p : sparser T) : tparser T :=
  mk_tparser (sp_accept p) (fun h i => silent (sp_ber p h i)) (fun h i => silent (sp_der p h i)).

(** src/asn1_types/iterator.rs:89-110, 153-174 *)
Fixpoint t_collect_loop {T} (p : input -> lres (input * sany)) (f : sany -> lres T) (fuel : nat) (i : input)
  : lres (input * list T) :=
  match fuel with
  | O => silent (SErr i EFuel)
  | S fuel =>
      if blen (in_data i) =? 0 then silent (SOk (i, []))
      else
        let! (rem, a) := (fst (p i), s_close i (snd (p i))) in
        let! x := f a in
        let! (r, xs) := t_collect_loop p f fuel rem in
        silent (SOk (r, x :: xs))
  end.
Definition t_convert_item {T} (accept : N -> bool) (content : sheader -> input -> lres (input * T)) (a : sany) : lres T :=
  if accept (h_tag (sh_fields (sa_header a))) then
    let! (_, x) := content (sa_header a) (sa_data a) in silent (SOk x)
  else silent (SErr (sa_data a) EUnexpectedTag).
(** src/asn1_types/sequence/vec.rs:70-87 and 97-114 *)
Definition t_vec_content {T} (parse : input -> lres (input * sany)) (accept : N -> bool)
    (content : sheader -> input -> lres (input * T)) (h : sheader) (i : input) : lres (input * list T) :=
  let! _ := silent (at_input i (assert_constructed (sh_fields h))) in
  if blen (in_data i) =? 0 then silent (SOk (i, []))
  else t_collect_loop parse (t_convert_item accept content) (S (length (in_data i))) i.
Definition t_vec_parser {T} (p : tparser T) : tparser (list T) :=
  mk_tparser (is_tag TagSequence)
    (t_vec_content (t_parse_ber (quiet s_any_parser)) (tp_accept p) (tp_ber p))
    (t_vec_content (t_parse_der (quiet s_any_parser)) (tp_accept p) (tp_der p)).
(** src/asn1_types/tagged/explicit.rs:57-88 and 100-131 *)
Definition t_explicit_content {T} (cl : class) (t : N) (parse : input -> lres (input * T)) (h : sheader) (i : input)
  : lres (input * T) :=
  let! _ := silent (at_input i (assert_constructed (sh_fields h))) in
  let! _ := silent (at_input i (check_class (sh_fields h) cl)) in
  let! _ := silent (at_input i (check_tag (sh_fields h) t)) in
  parse i.
Definition t_explicit_parser {T} (cl : class) (t : N) (p : tparser T) : tparser T :=
  mk_tparser (is_tag t) (t_explicit_content cl t (t_parse_ber p)) (t_explicit_content cl t (t_parse_der p)).

(** src/asn1_types/integer.rs:556-583 and 585-598; an [Integer] is its bytes. *)
Definition s_integer_content (h : sheader) (i : input) : sres (input * bytes) :=
  let+ _ := at_input i (assert_primitive (sh_fields h)) in
  let+ (rem, content) := s_der_get_content h i in
  if blen (in_data content) =? 0 then SErr content EInvalidLength else SOk (rem, in_data content).
Definition t_integer_ber (h : sheader) : input -> lres (input * bytes) :=
  trace_input c AtInteger (fun i => silent (s_integer_content h i)).
Definition t_integer_der (h : sheader) (i : input) : lres (input * bytes) :=
  let! _ := silent (at_input i (check_der_int_input (in_data i))) in
  t_integer_ber h i.
Definition t_integer_parser : tparser bytes := mk_tparser (is_tag TagInteger) t_integer_ber t_integer_der.

(** src/asn1_types/optional.rs:65-77, 109-121 *)
Definition t_option_content {T} (accept : N -> bool) (content : sheader -> input -> lres (input * T)) (h : sheader) (i : input)
  : lres (input * option T) :=
  if accept (h_tag (sh_fields h)) then
    let! (rem, data) := t_ber_object_content h i MAX_RECURSION in
    let! (_, x) := content h data in
    silent (SOk (rem, Some x))
  else silent (SOk (i, None)).
(** src/asn1_types/optional.rs:43-63, 87-107 *)
Definition t_option_parse {T} (s : site) (header : input -> lres (input * sheader)) (accept : N -> bool)
    (content : sheader -> input -> lres (input * T)) : input -> lres (input * option T) :=
  trace_input c s (fun i =>
    if blen (in_data i) =? 0 then silent (SOk (i, None))
    else
      let! (rem, h) := header i in
      if accept (h_tag (sh_fields h)) then
        let! (rem, data) := t_ber_object_content h rem MAX_RECURSION in
        let! (_, x) := t_option_content accept content h data in
        silent (SOk (rem, x))
      else silent (SOk (i, None))).
Definition t_option_parse_ber {T} (p : tparser T) : input -> lres (input * option T) :=
  t_option_parse AtOptionBer t_header (tp_accept p) (tp_ber p).
Definition t_option_parse_der {T} (p : tparser T) : input -> lres (input * option T) :=
  t_option_parse AtOptionDer t_header_der (tp_accept p) (tp_der p).

(** ** Slices

    src/from_ber.rs:164-175 ([wrap_ber_parser]). *)
Definition t_wrap {T} (f : input -> lres (input * T)) (d : bytes) : logged (res (bytes * T)) :=
  (fst (f (from_slice d)),
   match snd (f (from_slice d)) with
   | SOk (rem, x) => Ok (in_data rem, x)
   | SErr _ e => Err e
   | SIncomplete n => Incomplete n
   | SPanic => Panic
   end).
(** The [?] operator. *)
Definition rbind {A B} (m : logged (res A)) (f : A -> logged (res B)) : logged (res B) :=
  match snd m with
  | Ok a => (fst m ++ fst (f a), snd (f a))
  | Err e => (fst m, Err e)
  | Incomplete n => (fst m, Incomplete n)
  | Panic => (fst m, Panic)
  end.
Notation "'let?' x ':=' r 'in' k" := (rbind r (fun x => k))
  (at level 200, x pattern, r at level 100, k at level 200, right associativity).

(** An [Any] without its spans. *)
Definition forget_any (a : sany) : any := mk_any (sh_fields (sa_header a)) (in_data (sa_data a)).
(** src/asn1_types/any.rs:489-494, 518-523 ([Any::from_ber], [Any::from_der]). *)
Definition t_any_from (f : input -> lres (input * sany)) (d : bytes) : logged (res (bytes * any)) :=
  let? (rem, a) := t_wrap f d in silent (Ok (rem, forget_any a)).
Definition t_any_from_ber : bytes -> logged (res (bytes * any)) := t_any_from t_parse_ber_any.
Definition t_any_from_der : bytes -> logged (res (bytes * any)) := t_any_from t_parse_der_any.

(** src/from_ber.rs:59-77 *)
Definition t_blanket_from_ber {T} (conv : any -> logged (res T)) (d : bytes) : logged (res (bytes * T)) :=
  let? (rem, a) := t_any_from_ber d in
  match snd (conv a) with
  | Ok x => (fst (conv a), Ok (rem, x))
  | Err e => (fst (conv a) ++ (if debugging c then [LConversion] else []), Err e)
  | Incomplete n => (fst (conv a) ++ (if debugging c then [LConversion] else []), Incomplete n)
  | Panic => (fst (conv a), Panic)
  end.
(** src/from_der.rs:93-114 *)
Definition t_blanket_from_der {T} (check : any -> res unit) (conv : any -> res T) : bytes -> logged (res (bytes * T)) :=
  trace_generic c AtType (fun d =>
    let? (rem, a) := t_any_from_der d in
    let? _ := silent (check a) in
    let? x := silent (conv a) in
    silent (Ok (rem, x))).

(** src/asn1_types/sequence/iterator.rs:52-109: the items of a [SequenceIterator] or [SetIterator], up to the first
    error. *)
Fixpoint t_seq_collect {T} (p : bytes -> logged (res (bytes * T))) (fuel : nat) (i : bytes) : logged (res (list T)) :=
  match fuel with
  | O => silent (Err EFuel)
  | S fuel =>
      if blen i =? 0 then silent (Ok [])
      else
        let? (rem, x) := (fst (p i), close (snd (p i))) in
        let? xs := t_seq_collect p fuel rem in
        silent (Ok (x :: xs))
  end.
Definition t_seq_items {T} (p : bytes -> logged (res (bytes * T))) (i : bytes) : logged (res (list T)) :=
  t_seq_collect p (S (length i)) i.

(** src/asn1_types/sequence/vec.rs:150-177, src/asn1_types/sequence/sequence_of.rs:168-195 ([tag] SEQUENCE),
    src/asn1_types/set/set_of.rs:173-198 (SET), src/asn1_types/set/btreeset.rs:91-118 and
    src/asn1_types/set/hashset.rs:91-120 (SET, the form bit checked); [of_list] is [collect]. *)
Definition t_collection_from_der {T U} (tag : N) (form : bool) (of_list : list T -> U)
    (p : bytes -> logged (res (bytes * T))) : bytes -> logged (res (bytes * U)) :=
  trace_generic c AtType (fun d =>
    let? (rem, a) := trace c AtType t_any_from_der d in
    let? _ := silent (assert_tag (any_header a) tag) in
    let? _ := silent (if form then assert_constructed (any_header a) else Ok tt) in
    let? v := t_seq_items p (any_data a) in
    silent (Ok (rem, of_list v))).
(** src/asn1_types/sequence/vec.rs:49-61, src/asn1_types/sequence/sequence_of.rs:100-115,
    src/asn1_types/set/set_of.rs:100-115, src/asn1_types/set/hashset.rs:17-32: [TryFrom<Any>]. *)
Definition t_collection_try_from {T U} (tag : N) (of_list : list T -> U) (p : bytes -> logged (res (bytes * T))) (a : any)
  : logged (res U) :=
  let? _ := silent (assert_tag (any_header a) tag) in
  let? _ := silent (assert_constructed (any_header a)) in
  let? v := t_seq_items p (any_data a) in
  silent (Ok (of_list v)).
(** src/asn1_types/set/btreeset.rs:12-33: the same, logged. *)
Definition t_btreeset_try_from {T U} (of_list : list T -> U) (p : bytes -> logged (res (bytes * T))) : any -> logged (res U) :=
  trace_generic c AtType (t_collection_try_from TagSet of_list p).
End traced.
Arguments mk_tparser {T}.
Arguments tp_accept {T}.
Arguments tp_ber {T}.
Arguments tp_der {T}.
