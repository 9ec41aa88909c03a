(** Model of [HashSet], [AnySet], and of the methods of [Sequence], [Set] and [Any] which convert their content. *)
From Verif Require Import Base MHeader MEncode MBer MInt MCont MSpan.

(** ** HashSet *)

(** [collect] into a [HashSet]: an element which is already there is dropped.  The list is in order of insertion;
    the order in which a [HashSet] is iterated over depends on its hasher, so that a set is written as any list
    with these elements.  [same] decides whether two elements are merged. *)
Definition hash_insert {T} (same : T -> T -> bool) (s : list T) (x : T) : list T :=
  if existsb (same x) s then s else s ++ [x].
Definition hash_collect {T} (same : T -> T -> bool) (l : list T) : list T := fold_left (hash_insert same) l [].

(** src/asn1_types/set/hashset.rs:34-74 and 12-15 *)
Definition hashset_ber_content {T} (same : T -> T -> bool) (P : parser T) (h : header) (i : bytes) : res (bytes * list T) :=
  let* _ := assert_constructed h in
  let* (rem, v) := collect_ber P i in Ok (rem, hash_collect same v).
Definition hashset_der_content {T} (same : T -> T -> bool) (P : parser T) (h : header) (i : bytes) : res (bytes * list T) :=
  let* _ := assert_constructed h in
  let* (rem, v) := collect_der P i in Ok (rem, hash_collect same v).
Definition hashset_parser {T} (same : T -> T -> bool) (P : parser T) : parser (list T) :=
  default_parser (is_tag TagSet) (hashset_ber_content same P) (hashset_der_content same P).

(** src/asn1_types/set/hashset.rs:17-32 *)
Definition hashset_try_from {T} (same : T -> T -> bool) (L : legacy T) (a : any) : res (list T) :=
  let* _ := assert_tag (any_header a) TagSet in
  let* _ := assert_constructed (any_header a) in
  let* v := seq_items (lg_from_ber L) (any_data a) in
  Ok (hash_collect same v).
(** src/asn1_types/set/hashset.rs:76-89, src/asn1_types/set/btreeset.rs:75-89 *)
Definition hashset_check {T} (L : legacy T) (a : any) : res unit :=
  let* _ := assert_tag (any_header a) TagSet in
  let* _ := assert_constructed (any_header a) in
  items_check L a.
(** src/asn1_types/set/hashset.rs:91-120 *)
Definition hashset_from_der {T} (same : T -> T -> bool) (L : legacy T) (i : bytes) : res (bytes * list T) :=
  let* (rem, a) := from_der any_codec i in
  let* _ := assert_tag (any_header a) TagSet in
  let* _ := assert_constructed (any_header a) in
  let* v := seq_items (lg_from_der L) (any_data a) in
  Ok (rem, hash_collect same v).
Definition hashset_legacy {T} (same : T -> T -> bool) (L : legacy T) : legacy (list T) :=
  mk_legacy TagSet (hashset_try_from same L) (hashset_check L) (blanket_from_ber (hashset_try_from same L))
            (hashset_from_der same L).

(** src/asn1_types/set/hashset.rs:12-15, 122-168: the argument is the list of elements in order of iteration. *)
Definition hashset_writer {T} (W : writer T) : writer (list T) :=
  mk_writer (fun _ => Universal) (fun _ => true) (fun _ => TagSet)
            (fun v => items_tober TagSet (map (wr_ber W) v))
            (fun v => items_tober TagSet (map (wr_der W) v)).

(** ** Equality of [Input] and of [Any]; AnySet *)

(** src/input.rs:12-16 ([derive(PartialEq, Eq, Hash)]): octets and range. *)
Definition input_eqb (a b : input) : bool :=
  bytes_eqb (in_data a) (in_data b) && (in_start a =? in_start b) && (in_end a =? in_end b).
(** src/asn1_types/any.rs:16-23 ([derive(PartialEq, Eq, Hash)]): header, as compared by src/header.rs:446-468, and
    content. *)
Definition sany_eqb (a b : sany) : bool :=
  header_eqb (sh_fields (sa_header a)) (sh_fields (sa_header b)) && input_eqb (sa_data a) (sa_data b).
(** What is fed to the hasher. *)
Definition sany_hash_input (a : sany) := (header_hash_input (sh_fields (sa_header a)), sa_data a).

(** src/asn1_types/set/any_set.rs:65-97 and src/asn1_types/iterator.rs:53-63, 117-127: [try_collect] into a
    [HashSet<Any>]. *)
Definition s_anyset_content (same : sany -> sany -> bool) (p : input -> sres (input * sany)) (h : sheader) (i : input)
  : sres (input * list sany) :=
  let+ _ := at_input i (assert_constructed (sh_fields h)) in
  let+ (rem, v) := s_collect_loop p (fun a => SOk a) (S (length (in_data i))) i in
  SOk (rem, hash_collect same v).
Definition s_anyset_parser (same : sany -> sany -> bool) : sparser (list sany) :=
  mk_sparser (is_tag TagSet) (s_anyset_content same (s_parse_ber s_any_parser))
             (s_anyset_content same (s_parse_der s_any_parser)).
(** src/asn1_types/set/any_set.rs:50-58 ([insert], which says whether the item was new; [remove], which takes at most one item
    out: if several compare equal to [a], it is unknown which; here the first). *)
Definition anyset_insert (same : sany -> sany -> bool) (s : list sany) (a : sany) : list sany * bool :=
  (hash_insert same s a, negb (existsb (same a) s)).
Fixpoint anyset_remove (same : sany -> sany -> bool) (s : list sany) (a : sany) : list sany * bool :=
  match s with
  | [] => ([], false)
  | x :: s => if same a x then (s, true) else let (r, found) := anyset_remove same s a in (x :: r, found)
  end.

(** src/asn1_types/set/hashset.rs:17-32 and src/from_ber.rs:59-77: [HashSet<Any>::from_ber], whose items are read by
    [Any::from_ber] from slices. *)
Definition s_hashset_any_from_ber (same : sany -> sany -> bool) (d : bytes) : res (bytes * list sany) :=
  let* (rem, a) := s_any_from_ber d in
  let* _ := assert_tag (sh_fields (sa_header a)) TagSet in
  let* _ := assert_constructed (sh_fields (sa_header a)) in
  let* v := seq_items s_any_from_ber (in_data (sa_data a)) in
  Ok (rem, hash_collect same v).

(** ** Sequence and Set *)

(** [Cow<[u8]>], the content of a [Sequence] (src/asn1_types/sequence.rs:84-87) or a [Set]
    (src/asn1_types/set.rs:81-84). *)
Inductive cow := Borrowed (b : bytes) | Owned (b : bytes).
Definition cow_bytes (c : cow) : bytes := match c with Borrowed b | Owned b => b end.

(** src/asn1_types/sequence.rs:394-397, src/asn1_types/set.rs:377-380: what is read is borrowed. *)
Definition read_raw (from : bytes -> res (bytes * bytes)) (i : bytes) : res (bytes * cow) :=
  let* (rem, d) := from i in Ok (rem, Borrowed d).
(** src/asn1_types/sequence.rs:358-362, src/asn1_types/set.rs:353-357 *)
Definition raw_to_static (c : cow) : cow := Owned (cow_bytes c).
(** src/asn1_types/sequence.rs:106-111, src/asn1_types/set.rs:103-108 *)
Definition as_raw_slice (c : cow) : option bytes := match c with Borrowed b => Some b | Owned _ => None end.

(** src/asn1_types/sequence.rs:121-126, 235-241, src/asn1_types/set.rs:118-123, 232-238: [op] is a function of the
    octets ([and_then] and [parse]). *)
Definition raw_parse {T} (c : cow) (f : bytes -> res (bytes * T)) : res (bytes * T) := f (cow_bytes c).
(** src/asn1_types/sequence.rs:252-261, src/asn1_types/set.rs:249-258 *)
Definition raw_parse_into {T} (c : cow) (f : bytes -> res (bytes * T)) : res (bytes * T) :=
  match c with Borrowed b => f b | Owned _ => Err ELifetimeError end.

(** src/asn1_types/sequence.rs:266-299, src/asn1_types/set.rs:263-296 ([ber_iter] collected, [ber_sequence_of],
    [ber_set_of] and the same for DER); [from] is [T::from_ber] or [T::from_der]. *)
Definition raw_items {T} (from : bytes -> res (bytes * T)) (c : cow) : res (list T) := seq_items from (cow_bytes c).
(** src/asn1_types/sequence.rs:305-341, src/asn1_types/set.rs:302-336 ([into_ber_sequence_of], [into_der_sequence_of],
    [into_ber_set_of], [into_der_set_of]). *)
Definition raw_into_items {T} (to_static : T -> T) (from : bytes -> res (bytes * T)) (c : cow) : res (list T) :=
  match c with
  | Borrowed b => seq_items from b
  | Owned b => let* v := seq_items from b in Ok (map to_static v)
  end.
(** src/asn1_types/sequence.rs:343-352, src/asn1_types/set.rs:338-347 ([into_der_sequence_of_ref],
    [into_der_set_of_ref]). *)
Definition raw_into_items_ref {T} (from : bytes -> res (bytes * T)) (c : cow) : res (list T) :=
  match c with
  | Borrowed b => seq_items from b
  | Owned _ => Err ELifetimeError
  end.

(** ** Any *)

Inductive mode := BerMode | DerMode.
(** src/asn1_types/any.rs:140-142 ([iter_elements]), collected: the mode asked for is not used. *)
Definition iter_elements (m : mode) (a : any) : res (bytes * list any) := try_collect any_parse_ber (any_data a).

(** ** Deprecated *)

(** src/to_der.rs:143-152 ([to_der_len]). *)
Definition to_der_len (w : tober) : res N :=
  match tb_content_len w with Definite n => Ok n | Indefinite => Err EIndefiniteLengthUnexpected end.
