(** Model of the container types: [Vec<T>], [SequenceOf<T>], [SetOf<T>], [BTreeSet<T>], arrays, tuples,
    [Option<T>], explicitly and implicitly tagged values, raw [Sequence]/[Set]. *)
From Verif Require Import Base MHeader MEncode MBer MInt.

(** ** What a type provides

    The element type [T] of a container is known to the container only through its traits:
    [DynTagged::accept_tag] with [BerParser]/[DerParser] ([parser]), the older
    [FromBer]/[FromDer]/[TryFrom<Any>]/[CheckDerConstraints] with [Tagged::TAG] ([legacy]), and
    [ToBer]/[ToDer] with the value methods of [DynTagged] ([writer]). *)
Record parser (T : Type) := mk_parser {
  ps_accept : N -> bool;
  ps_ber_content : header -> bytes -> res (bytes * T);
  ps_der_content : header -> bytes -> res (bytes * T);
  ps_parse_ber : bytes -> res (bytes * T);
  ps_parse_der : bytes -> res (bytes * T)
}.
Arguments mk_parser {T}.
Arguments ps_accept {T}.
Arguments ps_ber_content {T}.
Arguments ps_der_content {T}.
Arguments ps_parse_ber {T}.
Arguments ps_parse_der {T}.

Record legacy (T : Type) := mk_legacy {
  lg_tag : N;
  lg_try_from : any -> res T;
  lg_check : any -> res unit;
  lg_from_ber : bytes -> res (bytes * T);
  lg_from_der : bytes -> res (bytes * T)
}.
Arguments mk_legacy {T}.
Arguments lg_tag {T}.
Arguments lg_try_from {T}.
Arguments lg_check {T}.
Arguments lg_from_ber {T}.
Arguments lg_from_der {T}.

Record writer (T : Type) := mk_writer {
  wr_class : T -> class;
  wr_constructed : T -> bool;
  wr_tag : T -> N;
  wr_ber : T -> tober;
  wr_der : T -> tober
}.
Arguments mk_writer {T}.
Arguments wr_class {T}.
Arguments wr_constructed {T}.
Arguments wr_tag {T}.
Arguments wr_ber {T}.
Arguments wr_der {T}.

(** The traits of a type modelled by a [codec]; default [parse_ber], [parse_der] and blanket
    [FromBer], [FromDer] (src/from_ber.rs:98-116, 59-77, src/from_der.rs:140-162, 93-114). *)
Definition codec_parser {T} (p : codec T) : parser T :=
  mk_parser (accept_tag p) (ber_content p) (der_content p) (parse_ber p) (parse_der p).
Definition codec_legacy {T} (tag : N) (p : codec T) : legacy T :=
  mk_legacy tag (try_from_any p) (check_constraints p) (from_ber p) (from_der p).

(** A parser with the default methods of the traits; the unused half of the [codec] is irrelevant. *)
Definition default_parser {T} (accept : N -> bool) (ber der : header -> bytes -> res (bytes * T)) : parser T :=
  codec_parser (mk_codec accept ber der (default_try_from accept ber) (fun _ => Ok tt)).

(** Blanket [FromBer] (src/from_ber.rs:59-77). *)
Definition blanket_from_ber {T} (try_from : any -> res T) (i : bytes) : res (bytes * T) :=
  let* (rem, a) := parse_ber_any i in
  let* x := try_from a in
  Ok (rem, x).

(** [ToBer] and [ToDer] given by one description (types with [impl_toder_from_tober!] or equal code),
    of a type with constant class, form and tag (src/tag.rs:131-150). *)
Definition same_writer {T} (c : class) (k : bool) (t : N) (w : T -> tober) : writer T :=
  mk_writer (fun _ => c) (fun _ => k) (fun _ => t) w w.

(** ** Iteration *)

(** src/asn1_types/sequence/iterator.rs:26-109 ([SequenceIterator], also [SetIterator]): state and
    [next]; [p] is [T::from_ber] or [T::from_der]. *)
Record seq_iter := mk_seq_iter { si_data : bytes; si_has_error : bool }.
Definition seq_iter_next {T} (p : bytes -> res (bytes * T)) (s : seq_iter) : option (res T) * seq_iter :=
  if si_has_error s || (blen (si_data s) =? 0) then (None, s)
  else match p (si_data s) with
       | Ok (rem, obj) => (Some (Ok obj), mk_seq_iter rem false)
       | Err e => (Some (Err e), mk_seq_iter (si_data s) true)
       | Incomplete n => (Some (Err (EIncomplete n)), mk_seq_iter (si_data s) true)
       | Panic => (Some Panic, mk_seq_iter (si_data s) true)
       end.

(** [n] calls to [next]. *)
Fixpoint seq_iter_calls {T} (p : bytes -> res (bytes * T)) (n : nat) (s : seq_iter)
  : list (option (res T)) * seq_iter :=
  match n with
  | O => ([], s)
  | S n => let (x, s1) := seq_iter_next p s in
           let (xs, s2) := seq_iter_calls p n s1 in
           (x :: xs, s2)
  end.

(** [collect::<Result<Vec<T>>>()] over a [SequenceIterator]: up to the first error.  [fuel] bounds the
    number of items. *)
Fixpoint seq_collect {T} (p : bytes -> res (bytes * T)) (fuel : nat) (i : bytes) : res (list T) :=
  match fuel with
  | O => Err EFuel
  | S fuel =>
      if blen i =? 0 then Ok []
      else
        let* (rem, x) := close (p i) in
        let* xs := seq_collect p fuel rem in
        Ok (x :: xs)
  end.
Definition seq_items {T} (p : bytes -> res (bytes * T)) (i : bytes) : res (list T) :=
  seq_collect p (S (length i)) i.

(** src/asn1_types/iterator.rs:89-110, 153-174 ([try_parse_collect] with an element type). *)
Definition collect_ber {T} (P : parser T) (i : bytes) : res (bytes * list T) :=
  collect_loop any_parse_ber (convert_item (ps_accept P) (ps_ber_content P)) (S (length i)) i.
Definition collect_der {T} (P : parser T) (i : bytes) : res (bytes * list T) :=
  collect_loop any_parse_der (convert_item (ps_accept P) (ps_der_content P)) (S (length i)) i.

(** src/asn1_types/sequence/iterator.rs:111-194 ([SequenceIteratorInput]): items are read from the
    content of each object, whatever its tag. *)
Definition input_items {T} (p : bytes -> res (bytes * any)) (content : header -> bytes -> res (bytes * T))
    (i : bytes) : res (list T) :=
  let* (_, xs) := collect_loop p (fun a => let* (_, x) := close (content (any_header a) (any_data a)) in Ok x)
                               (S (length i)) i in
  Ok xs.

(** ** Vec, SequenceOf *)

(** src/asn1_types/sequence/vec.rs:63-88 and 90-115 *)
Definition vec_ber_content {T} (P : parser T) (h : header) (i : bytes) : res (bytes * list T) :=
  let* _ := assert_constructed h in
  if blen i =? 0 then Ok (i, []) else collect_ber P i.
Definition vec_der_content {T} (P : parser T) (h : header) (i : bytes) : res (bytes * list T) :=
  let* _ := assert_constructed h in
  if blen i =? 0 then Ok (i, []) else collect_der P i.

(** src/asn1_types/sequence/vec.rs:63-115, 132-135; src/asn1_types/sequence/sequence_of.rs:117-151,
    198-201 delegates to it. *)
Definition vec_parser {T} (P : parser T) : parser (list T) :=
  default_parser (is_tag TagSequence) (vec_ber_content P) (vec_der_content P).

(** src/asn1_types/sequence/vec.rs:49-61 ([TryFrom<Any>]). *)
Definition vec_try_from {T} (L : legacy T) (a : any) : res (list T) :=
  let* _ := assert_tag (any_header a) TagSequence in
  let* _ := assert_constructed (any_header a) in
  seq_items (lg_from_ber L) (any_data a).

(** src/asn1_types/sequence/vec.rs:117-130; [Any::from_der] items, then [T::check_constraints]. *)
Definition items_check {T} (L : legacy T) (a : any) : res unit :=
  let* _ := seq_items (fun i => let* (rem, x) := from_der any_codec i in
                                let* _ := lg_check L x in Ok (rem, tt)) (any_data a) in
  Ok tt.
Definition vec_check {T} (L : legacy T) (a : any) : res unit :=
  let* _ := assert_tag (any_header a) TagSequence in
  let* _ := assert_constructed (any_header a) in
  items_check L a.

(** src/asn1_types/sequence/vec.rs:150-177 ([FromDer]): the form bit is not looked at. *)
Definition vec_from_der {T} (L : legacy T) (i : bytes) : res (bytes * list T) :=
  let* (rem, a) := parse_der_any i in
  let* _ := assert_tag (any_header a) TagSequence in
  let* v := seq_items (lg_from_der L) (any_data a) in
  Ok (rem, v).

(** src/asn1_types/sequence/vec.rs:49-61, 117-177; src/asn1_types/sequence/sequence_of.rs:100-115,
    153-196 is the same code. *)
Definition vec_legacy {T} (L : legacy T) : legacy (list T) :=
  mk_legacy TagSequence (vec_try_from L) (vec_check L) (blanket_from_ber (vec_try_from L)) (vec_from_der L).

(** src/asn1_types/sequence/vec.rs:180-231; src/asn1_types/sequence/sequence_of.rs:204-244 *)
Definition items_tober (tag : N) (vs : list tober) : tober :=
  mk_tober EncConstructed Universal true tag (length_constructed_items vs) (write_items vs).
Definition vec_writer {T} (W : writer T) : writer (list T) :=
  mk_writer (fun _ => Universal) (fun _ => true) (fun _ => TagSequence)
            (fun v => items_tober TagSequence (map (wr_ber W) v))
            (fun v => items_tober TagSequence (map (wr_der W) v)).

(** ** Arrays *)

(** src/asn1_types/sequence/array.rs:10-49; [Self::try_from(v)] fails unless the lengths agree.
    Arrays have no [TryFrom<Any>], [FromBer] or [FromDer]. *)
Definition array_content {T} (n : nat) (vec : header -> bytes -> res (bytes * list T)) (h : header) (i : bytes)
  : res (bytes * list T) :=
  let* (rem, v) := vec h i in
  if (length v =? n)%nat then Ok (rem, v) else Err EInvalidLength.
Definition array_parser {T} (n : nat) (P : parser T) : parser (list T) :=
  default_parser (is_tag TagSequence) (array_content n (vec_ber_content P)) (array_content n (vec_der_content P)).

(** src/asn1_types/sequence/array.rs:52-103: the same code as for [Vec]. *)
Definition array_writer {T} (W : writer T) : writer (list T) := vec_writer W.

(** ** SetOf, BTreeSet *)

(** src/asn1_types/set/set_of.rs:117-157, 200-202 *)
Definition setof_ber_content {T} (P : parser T) (h : header) (i : bytes) : res (bytes * list T) :=
  let* _ := assert_constructed h in collect_ber P i.
Definition setof_der_content {T} (P : parser T) (h : header) (i : bytes) : res (bytes * list T) :=
  let* _ := assert_constructed h in collect_der P i.
Definition setof_parser {T} (P : parser T) : parser (list T) :=
  default_parser (is_tag TagSet) (setof_ber_content P) (setof_der_content P).

(** src/asn1_types/set/set_of.rs:100-115 *)
Definition setof_try_from {T} (L : legacy T) (a : any) : res (list T) :=
  let* _ := assert_tag (any_header a) TagSet in
  let* _ := assert_constructed (any_header a) in
  seq_items (lg_from_ber L) (any_data a).

(** src/asn1_types/set/set_of.rs:159-172 *)
Definition setof_check {T} (L : legacy T) (a : any) : res unit :=
  let* _ := assert_tag (any_header a) TagSet in
  let* _ := assert_constructed (any_header a) in
  items_check L a.

(** src/asn1_types/set/set_of.rs:175-198: the form bit is not looked at. *)
Definition setof_from_der {T} (L : legacy T) (i : bytes) : res (bytes * list T) :=
  let* (rem, a) := from_der any_codec i in
  let* _ := assert_tag (any_header a) TagSet in
  let* v := seq_items (lg_from_der L) (any_data a) in
  Ok (rem, v).
Definition setof_legacy {T} (L : legacy T) : legacy (list T) :=
  mk_legacy TagSet (setof_try_from L) (setof_check L) (blanket_from_ber (setof_try_from L)) (setof_from_der L).

(** src/asn1_types/set/set_of.rs:200-245; [Tagged for SetOf] leaves [CONSTRUCTED] at its default, false
    (src/tag.rs:94). *)
Definition setof_writer {T} (W : writer T) : writer (list T) :=
  mk_writer (fun _ => Universal) (fun _ => false) (fun _ => TagSet)
            (fun v => items_tober TagSet (map (wr_ber W) v))
            (fun v => items_tober TagSet (map (wr_der W) v)).

(** [collect] into a [BTreeSet]: ascending order of [T: Ord], one of each equal elements. *)
Fixpoint set_insert {T} (cmp : T -> T -> comparison) (x : T) (l : list T) : list T :=
  match l with
  | [] => [x]
  | y :: r => match cmp x y with
              | Lt => x :: l
              | Eq => x :: r
              | Gt => y :: set_insert cmp x r
              end
  end.
Definition set_of_list {T} (cmp : T -> T -> comparison) (l : list T) : list T :=
  fold_left (fun s x => set_insert cmp x s) l [].

(** src/asn1_types/set/btreeset.rs:35-73; a [BTreeSet] is its ascending list of elements. *)
Definition btreeset_content {T} (cmp : T -> T -> comparison) (setof : header -> bytes -> res (bytes * list T))
    (h : header) (i : bytes) : res (bytes * list T) :=
  let* (rem, v) := setof h i in Ok (rem, set_of_list cmp v).
Definition btreeset_parser {T} (cmp : T -> T -> comparison) (P : parser T) : parser (list T) :=
  default_parser (is_tag TagSet) (btreeset_content cmp (setof_ber_content P))
                 (btreeset_content cmp (setof_der_content P)).

(** src/asn1_types/set/btreeset.rs:12-33 and 91-118: here [from_der] checks the form bit. *)
Definition btreeset_try_from {T} (cmp : T -> T -> comparison) (L : legacy T) (a : any) : res (list T) :=
  let* v := setof_try_from L a in Ok (set_of_list cmp v).
Definition btreeset_from_der {T} (cmp : T -> T -> comparison) (L : legacy T) (i : bytes) : res (bytes * list T) :=
  let* (rem, a) := from_der any_codec i in
  let* _ := assert_tag (any_header a) TagSet in
  let* _ := assert_constructed (any_header a) in
  let* v := seq_items (lg_from_der L) (any_data a) in
  Ok (rem, set_of_list cmp v).
Definition btreeset_legacy {T} (cmp : T -> T -> comparison) (L : legacy T) : legacy (list T) :=
  mk_legacy TagSet (btreeset_try_from cmp L) (setof_check L) (blanket_from_ber (btreeset_try_from cmp L))
            (btreeset_from_der cmp L).

(** src/asn1_types/set/btreeset.rs:7-10, 121-167: elements are written in the order of [T: Ord]. *)
Definition btreeset_writer {T} (W : writer T) : writer (list T) :=
  mk_writer (fun _ => Universal) (fun _ => true) (fun _ => TagSet)
            (fun v => items_tober TagSet (map (wr_ber W) v))
            (fun v => items_tober TagSet (map (wr_der W) v)).

(** ** Tuples *)

(** src/asn1_types/sequence/tuple.rs:11-45: the components one after the other; what follows the last
    one is returned.  [(T1, T2, T3)] is [T1 * (T2 * (T3 * unit))]. *)
Definition fields (T : Type) := bytes -> res (bytes * T).
Definition no_field : fields unit := fun i => Ok (i, tt).
Definition field {A B} (p : bytes -> res (bytes * A)) (f : fields B) : fields (A * B) := fun i =>
  let* (rem, x) := p i in
  let* (rem, y) := f rem in
  Ok (rem, (x, y)).

(** src/asn1_types/sequence/tuple.rs:5-45: the header is ignored. *)
Definition tuple_parser {T} (ber der : fields T) : parser T :=
  default_parser (is_tag TagSequence) (fun _ i => ber i) (fun _ i => der i).

(** ** Tagged values *)

(** [if header.class as u8 != CLASS]; [CLASS] is assumed to be a class number. *)
Definition check_class (h : header) (c : class) : res unit :=
  if class_num (h_class h) =? class_num c then Ok tt else Err EUnexpectedClass.
Definition check_tag (h : header) (t : N) : res unit :=
  if is_tag t (h_tag h) then Ok tt else Err EUnexpectedTag.

(** src/asn1_types/tagged/explicit.rs:48-89 and 91-132 *)
Definition explicit_content {T} (c : class) (t : N) (parse : bytes -> res (bytes * T)) (h : header) (i : bytes)
  : res (bytes * T) :=
  let* _ := assert_constructed h in
  let* _ := check_class h c in
  let* _ := check_tag h t in
  parse i.
Definition explicit_parser {T} (c : class) (t : N) (P : parser T) : parser T :=
  default_parser (is_tag t) (explicit_content c t (ps_parse_ber P)) (explicit_content c t (ps_parse_der P)).

(** src/asn1_types/tagged/explicit.rs:11-46, src/asn1_types/any.rs:391-400 ([as_tagged_explicit]) *)
Definition explicit_try_from {T} (c : class) (t : N) (L : legacy T) (a : any) : res T :=
  let* _ := assert_tag (any_header a) t in
  let* _ := assert_constructed (any_header a) in
  let* _ := check_class (any_header a) c in
  let* (_, x) := close (lg_from_ber L (any_data a)) in
  Ok x.

(** src/asn1_types/tagged/explicit.rs:159-170 *)
Definition explicit_check {T} (L : legacy T) (a : any) : res unit :=
  let* _ := length_assert_definite (h_length (any_header a)) in
  let* (_, inner) := close (parse_ber_any (any_data a)) in
  lg_check L inner.

(** src/asn1_types/tagged/explicit.rs:134-157 *)
Definition explicit_from_der {T} (c : class) (t : N) (L : legacy T) (i : bytes) : res (bytes * T) :=
  let* (rem, a) := from_der any_codec i in
  let* _ := assert_tag (any_header a) t in
  let* _ := assert_constructed (any_header a) in
  let* _ := check_class (any_header a) c in
  let* (_, x) := lg_from_der L (any_data a) in
  Ok (rem, x).
Definition explicit_legacy {T} (c : class) (t : N) (L : legacy T) : legacy T :=
  mk_legacy t (explicit_try_from c t L) (explicit_check L) (blanket_from_ber (explicit_try_from c t L))
            (explicit_from_der c t L).

(** src/asn1_types/tagged/explicit.rs:5-9, 172-217; the header length uses [inner.tag()]. *)
Definition explicit_tober (c : class) (t : N) (inner_tag : N) (w : tober) : tober :=
  mk_tober EncGeneric c true t
           (length_add (Definite (unwrap_or0 (ber_header_length inner_tag (tb_content_len w))))
                       (tb_content_len w))
           (encode w).
Definition explicit_writer {T} (c : class) (t : N) (W : writer T) : writer T :=
  mk_writer (fun _ => c) (fun _ => true) (fun _ => t)
            (fun v => explicit_tober c t (wr_tag W v) (wr_ber W v))
            (fun v => explicit_tober c t (wr_tag W v) (wr_der W v)).

(** src/asn1_types/tagged/implicit.rs:73-102 and 104-133: the header is passed on unchanged. *)
Definition implicit_content {T} (c : class) (content : header -> bytes -> res (bytes * T)) (h : header) (i : bytes)
  : res (bytes * T) :=
  let* _ := check_class h c in content h i.
Definition implicit_parser {T} (c : class) (t : N) (P : parser T) : parser T :=
  default_parser (is_tag t) (implicit_content c (ps_ber_content P)) (implicit_content c (ps_der_content P)).

(** [Header { tag: T::TAG, ..header }] and src/header.rs:75-78 ([Header::with_tag]) *)
Definition with_tag (h : header) (t : N) : header :=
  mk_header (h_class h) (h_constructed h) t (h_length h) (h_raw_tag h) (h_raw_header h).

(** src/asn1_types/tagged/implicit.rs:28-71, src/asn1_types/any.rs:402-412 ([as_tagged_implicit]) *)
Definition implicit_try_from {T} (c : class) (t : N) (L : legacy T) (a : any) : res T :=
  let* _ := assert_tag (any_header a) t in
  let* _ := check_class (any_header a) c in
  lg_try_from L (mk_any (with_tag (any_header a) (lg_tag L)) (any_data a)).

(** src/asn1_types/tagged/implicit.rs:167-180 *)
Definition implicit_check {T} (L : legacy T) (a : any) : res unit :=
  let* _ := length_assert_definite (h_length (any_header a)) in
  lg_check L (mk_any (with_tag (any_header a) (lg_tag L)) (any_data a)).

(** src/asn1_types/tagged/implicit.rs:135-165: the DER constraints of [T] are not checked. *)
Definition implicit_from_der {T} (c : class) (t : N) (L : legacy T) (i : bytes) : res (bytes * T) :=
  let* (rem, a) := from_der any_codec i in
  let* x := implicit_try_from c t L a in
  Ok (rem, x).
Definition implicit_legacy {T} (c : class) (t : N) (L : legacy T) : legacy T :=
  mk_legacy t (implicit_try_from c t L) (implicit_check L) (blanket_from_ber (implicit_try_from c t L))
            (implicit_from_der c t L).

(** src/asn1_types/tagged/implicit.rs:5-26, 182-223 *)
Definition implicit_tober (c : class) (k : bool) (t : N) (w : tober) : tober :=
  mk_tober EncGeneric c k t (tb_content_len w) (tb_write_content w).
Definition implicit_writer {T} (c : class) (t : N) (W : writer T) : writer T :=
  mk_writer (fun _ => c) (wr_constructed W) (fun _ => t)
            (fun v => implicit_tober c (wr_constructed W v) t (wr_ber W v))
            (fun v => implicit_tober c (wr_constructed W v) t (wr_der W v)).

(** ** TaggedParser *)

(** src/asn1_types/tagged/explicit.rs:295-331: class, tag and form are not looked at; the value is
    paired with the header found. *)
Definition tp_explicit_from_ber {T} (L : legacy T) (i : bytes) : res (bytes * (header * T)) :=
  let* (rem, a) := parse_ber_any i in
  let* (_, x) := lg_from_ber L (any_data a) in
  Ok (rem, (any_header a, x)).
Definition tp_explicit_from_der {T} (L : legacy T) (i : bytes) : res (bytes * (header * T)) :=
  let* (rem, a) := from_der any_codec i in
  let* (_, x) := lg_from_der L (any_data a) in
  Ok (rem, (any_header a, x)).

(** src/asn1_types/tagged/implicit.rs:247-276 and 291-322 *)
Definition tp_implicit_from_ber {T} (L : legacy T) (i : bytes) : res (bytes * (header * T)) :=
  let* (rem, a) := parse_ber_any i in
  let* x := lg_try_from L (mk_any (with_tag (any_header a) (lg_tag L)) (any_data a)) in
  Ok (rem, (any_header a, x)).
Definition tp_implicit_from_der {T} (L : legacy T) (i : bytes) : res (bytes * (header * T)) :=
  let* (rem, a) := from_der any_codec i in
  let a' := mk_any (with_tag (any_header a) (lg_tag L)) (any_data a) in
  let* _ := lg_check L a' in
  let* x := lg_try_from L a' in
  Ok (rem, (any_header a, x)).

(** src/asn1_types/tagged/parser.rs:48-72 ([TaggedParser::parse_ber], [parse_der]), also behind
    [TaggedParserBuilder::ber_parser], [der_parser] (src/asn1_types/tagged/builder.rs:85-113). *)
Definition tp_parse {T} (from : bytes -> res (bytes * (header * T))) (c : class) (t : N) (i : bytes)
  : res (bytes * (header * T)) :=
  let* (rem, (h, x)) := from i in
  let* _ := assert_class h c in
  let* _ := assert_tag h t in
  Ok (rem, (h, x)).

(** src/asn1_types/tagged/helpers.rs:8-22 and 43-58 ([parse_der_tagged_explicit],
    [parse_der_tagged_implicit]): only the tag number is compared. *)
Definition parse_der_tagged {T} (from : bytes -> res (bytes * (header * T))) (t : N) (i : bytes)
  : res (bytes * (header * T)) :=
  let* (rem, (h, x)) := from i in
  let* _ := assert_tag h t in
  Ok (rem, (h, x)).

(** src/asn1_types/tagged/helpers.rs:25-41 ([parse_der_tagged_explicit_g]) with 86-99
    ([parse_der_container]). *)
Definition parse_der_tagged_explicit_g {T} (t : N) (f : bytes -> header -> res (bytes * T)) (i : bytes)
  : res (bytes * T) :=
  let* (rem, a) := from_der any_codec i in
  let* _ := assert_tag (any_header a) t in
  let* (_, x) := f (any_data a) (any_header a) in
  Ok (rem, x).

(** src/asn1_types/tagged/helpers.rs:60-84 ([parse_der_tagged_implicit_g]); [tag0] is [T::TAG]. *)
Definition parse_der_tagged_implicit_g {T} (t tag0 : N) (f : bytes -> N -> header -> res (bytes * T)) (i : bytes)
  : res (bytes * T) :=
  let* (rem, a) := from_der any_codec i in
  let* _ := assert_tag (any_header a) t in
  let* (_, x) := f (any_data a) t (with_tag (any_header a) tag0) in
  Ok (rem, x).

(** src/asn1_types/tagged/explicit.rs:346-384 and src/asn1_types/tagged/implicit.rs:344-382.  [DynTagged for TaggedParser]
    (src/asn1_types/tagged/parser.rs:74-83) does not define [constructed], so the implicit form is
    written primitive whatever the header says (src/tag.rs:116-118). *)
Definition tp_explicit_tober (h : header) (w : tober) : tober :=
  mk_tober EncGeneric (h_class h) true (h_tag h) (total_len w) (encode w).
Definition tp_implicit_tober (h : header) (w : tober) : tober :=
  mk_tober EncGeneric (h_class h) false (h_tag h) (tb_content_len w) (tb_write_content w).

(** src/asn1_types/tagged/optional.rs:102-122 and 145-165 ([OptTaggedParser]); [f] gets the header and
    the content. *)
Definition opt_tagged_parse {T} (p : bytes -> res (bytes * any)) (c : class) (t : N)
    (f : header -> bytes -> res (bytes * T)) (i : bytes) : res (bytes * option T) :=
  if blen i =? 0 then Ok (i, None)
  else
    let* (rem, a) := p i in
    if negb (h_tag (any_header a) =? t) then Ok (i, None)
    else if negb (class_eqb (h_class (any_header a)) c) then Err EUnexpectedClass
    else let* (_, x) := f (any_header a) (any_data a) in Ok (rem, Some x).

(** ** Option *)

(** src/asn1_types/optional.rs:65-77 and 109-121 (both fetch the content in BER mode). *)
Definition option_content {T} (accept : N -> bool) (content : header -> bytes -> res (bytes * T)) (h : header)
    (i : bytes) : res (bytes * option T) :=
  if accept (h_tag h) then
    let* (rem, data) := ber_object_content h i MAX_RECURSION in
    let* (_, x) := content h data in
    Ok (rem, Some x)
  else Ok (i, None).

(** src/asn1_types/optional.rs:43-63 and 87-107; the content fetched here is handed to
    [from_ber_content] above, which fetches the content of the object in it again. *)
Definition option_parse {T} (parse_header : bytes -> res (bytes * header)) (accept : N -> bool)
    (content : header -> bytes -> res (bytes * T)) (i : bytes) : res (bytes * option T) :=
  if blen i =? 0 then Ok (i, None)
  else
    let* (rem, h) := parse_header i in
    if accept (h_tag h) then
      let* (rem, data) := ber_object_content h rem MAX_RECURSION in
      let* (_, x) := option_content accept content h data in
      Ok (rem, x)
    else Ok (i, None).
Definition option_parser {T} (P : parser T) : parser (option T) :=
  mk_parser (ps_accept P) (option_content (ps_accept P) (ps_ber_content P))
            (option_content (ps_accept P) (ps_der_content P))
            (option_parse header_parse_ber (ps_accept P) (ps_ber_content P))
            (option_parse header_parse_der (ps_accept P) (ps_der_content P)).

(** src/asn1_types/optional.rs:14-34 and 124-144; [accept] is [T::accept_tag]. *)
Definition option_from {T} (parse_header : bytes -> res (bytes * header)) (accept : N -> bool)
    (from : bytes -> res (bytes * T)) (i : bytes) : res (bytes * option T) :=
  if blen i =? 0 then Ok (i, None)
  else
    match parse_header i with
    | Ok (_, h) =>
        if accept (h_tag h) then let* (rem, x) := from i in Ok (rem, Some x) else Ok (i, None)
    | _ => let* (rem, x) := from i in Ok (rem, Some x)
    end.
Definition option_from_ber {T} (accept : N -> bool) (L : legacy T) : bytes -> res (bytes * option T) :=
  option_from header_parse_ber accept (lg_from_ber L).
Definition option_from_der {T} (accept : N -> bool) (L : legacy T) : bytes -> res (bytes * option T) :=
  option_from header_parse_der accept (lg_from_der L).

(** src/asn1_types/optional.rs:176-238 ([ber_encode], [der_encode] are overridden). *)
Definition option_encode (o : option tober) : wres :=
  match o with Some w => encode w | None => Ok ([], 0) end.

(** src/asn1_types/optional.rs:155-170 ([DynTagged::tag]): [self.tag()] on [Some] calls itself without
    end, which overflows the stack. *)
Definition option_tag {T} (o : option T) : res N :=
  match o with Some _ => Panic | None => Ok 0 end.

(** src/to_ber.rs:32-36 with src/asn1_types/optional.rs:182-187, 196-198: [ber_total_len] asks
    [ber_tag_info] for the tag. *)
Definition option_total_len (o : option tober) : res blength :=
  let* t := option_tag o in
  Ok (ber_total_length t (match o with Some w => tb_content_len w | None => Definite 0 end)).

(** src/asn1_types/any.rs:379-389 ([Any::as_optional]). *)
Definition as_optional {T} (try_from : any -> res T) (a : any) : res (option T) :=
  match try_from a with
  | Ok x => Ok (Some x)
  | Err EUnexpectedTag => Ok None
  | Err e => Err e
  | Incomplete n => Incomplete n
  | Panic => Panic
  end.

(** ** Raw Sequence and Set *)

(** src/asn1_types/sequence.rs:383-460 and src/asn1_types/set.rs:366-441: the content is kept as is. *)
Definition raw_content (h : header) (i : bytes) : res (bytes * bytes) :=
  let* _ := assert_constructed h in take (blen i) i.
Definition raw_try_from (tag : N) (a : any) : res bytes :=
  let* _ := assert_tag (any_header a) tag in
  let* _ := assert_constructed (any_header a) in
  Ok (any_data a).
Definition raw_codec (tag : N) : codec bytes :=
  mk_codec (is_tag tag) raw_content raw_content (raw_try_from tag) (fun _ => Ok tt).

(** src/asn1_types/sequence.rs:463-484, src/asn1_types/set.rs:444-465 *)
Definition raw_tober (tag : N) (d : bytes) : tober :=
  mk_tober EncConstructed Universal true tag (Definite (blen d)) (Ok (d, blen d)).

(** src/asn1_types/sequence.rs:499-513, src/asn1_types/set.rs:480-494 ([from_iter_to_der]). *)
Fixpoint concat_vecs (vs : list tober) : res bytes :=
  match vs with
  | [] => Ok []
  | w :: r => let* b := to_vec w in let* bs := concat_vecs r in Ok (b ++ bs)
  end.
Definition from_iter_to_der {T} (W : writer T) (vs : list T) : res bytes := concat_vecs (map (wr_der W) vs).

(** src/asn1_types/sequence.rs:129-142, 165-178 ([from_ber_and_then], [from_der_and_then]) and 181-195,
    218-232 ([parse_ber_and_then], [parse_der_and_then]); likewise in src/asn1_types/set.rs:126-139,
    162-175, 178-192, 215-229.  The latter two do not check the form bit. *)
Definition from_and_then {T} (from : bytes -> res (bytes * bytes)) (op : bytes -> res (bytes * T)) (i : bytes)
  : res (bytes * T) :=
  let* (rem, d) := from i in
  let* (_, x) := op d in
  Ok (rem, x).
Definition parse_and_then {T} (p : bytes -> res (bytes * any)) (tag : N) (op : header -> bytes -> res (bytes * T))
    (i : bytes) : res (bytes * T) :=
  let* (rem, a) := p i in
  if is_tag tag (h_tag (any_header a)) then
    let* (_, x) := op (any_header a) (any_data a) in Ok (rem, x)
  else Err EUnexpectedTag.

(** src/asn1_types/any.rs:91-134 ([Any::from_ber_and_then], [from_der_and_then]);
    src/asn1_types/tagged/explicit.rs:252-293 calls these. *)
Definition any_and_then {T} (p : bytes -> res (bytes * any)) (c : class) (t : N) (op : bytes -> res (bytes * T))
    (i : bytes) : res (bytes * T) :=
  let* (rem, a) := p i in
  let* _ := assert_tag (any_header a) t in
  let* _ := assert_class (any_header a) c in
  let* (_, x) := op (any_data a) in
  Ok (rem, x).

(** ** AnySequence, AnySet *)

(** src/asn1_types/sequence/any_sequence.rs:56-92 and src/asn1_types/set/any_set.rs: every item as
    [Any]. *)
Definition any_items_content (p : bytes -> res (bytes * any)) (h : header) (i : bytes) : res (bytes * list any) :=
  let* _ := assert_constructed h in try_collect p i.
Definition any_items_parser (tag : N) : parser (list any) :=
  default_parser (is_tag tag) (any_items_content any_parse_ber) (any_items_content any_parse_der).

(** src/asn1_types/sequence/any_sequence.rs:95-140, src/asn1_types/set/any_set.rs:100-141 *)
Definition any_items_tober (tag : N) (v : list any) : tober := items_tober tag (map tober_any v).

(** ** IndefiniteVec *)

(** src/to_ber/constructed_indefinite.rs:42-83 *)
Definition indefinite_vec_tober (vs : list tober) : tober :=
  mk_tober EncConstructedIndefinite Universal true TagSequence Indefinite
           (wseq (write_items vs) (Ok ([0; 0], 2))).

(** ** EndOfContent *)

(** src/asn1_types/end_of_content.rs:30-42 *)
Definition eoc_content (h : header) (i : bytes) : res (bytes * unit) :=
  if is_null (h_length h) then Ok (i, tt) else Err EInvalidLength.
(** src/asn1_types/end_of_content.rs:28-46 (no [DerParser] and no [FromDer]). *)
Definition eoc_codec : codec unit :=
  mk_codec (is_tag TagEndOfContent) eoc_content (fun _ _ => Err EUnsupported)
           (default_try_from (is_tag TagEndOfContent) eoc_content) (fun _ => Err EUnsupported).
