(** Model of OBJECT IDENTIFIER and RELATIVE-OID. *)
From Verif Require Import Base MHeader MEncode MBer MInt.

(** src/asn1_types/oid.rs:39-42 ([PartialEq] is derived: both fields). *)
Record oid := mk_oid { oid_asn1 : bytes; oid_relative : bool }.

(** src/asn1_types/oid.rs:16-27 *)
Inductive oid_error := OidTooShort | OidFirstComponentsTooLarge | OidParseIntError.

(** src/asn1_types/oid.rs:46-64 *)
Definition oid_ber_content (h : header) (i : bytes) : res (bytes * oid) :=
  let* _ := assert_primitive h in
  match i with
  | [] => Err EInvalidLength
  | _ => Ok ([], mk_oid i false)
  end.

(** src/asn1_types/oid.rs:66-76 *)
Definition oid_der_content (h : header) (i : bytes) : res (bytes * oid) := oid_ber_content h i.

(** src/asn1_types/oid.rs:78-84 *)
Definition oid_check (a : any) : res unit :=
  let* _ := assert_primitive (any_header a) in
  length_assert_definite (h_length (any_header a)).

(** src/asn1_types/oid.rs:88-100 ([DynTagged]) *)
Definition oid_accept (t : N) : bool := (t =? TagOid) || (t =? TagRelativeOid).
Definition oid_tag (o : oid) : N := if oid_relative o then TagRelativeOid else TagOid.

Definition oid_codec : codec oid :=
  mk_codec oid_accept oid_ber_content oid_der_content (default_try_from oid_accept oid_ber_content) oid_check.

(** src/asn1_types/oid.rs:106-121 *)
Definition tober_oid (o : oid) : tober :=
  mk_tober EncGeneric Universal false (oid_tag o) (Definite (blen (oid_asn1 o)))
           (Ok (oid_asn1 o, blen (oid_asn1 o))).

(** src/asn1_types/oid.rs:126-135 ([encode_relative]): one arc, a [u64]. *)
Definition encode_arc (id : N) : bytes :=
  let bit_count := N.size id in
  let octets_needed := N.max ((bit_count + 6) / 7) 1 in
  map (fun i => let flag := if i =? octets_needed - 1 then 0 else N.shiftl 1 7 in
                N.lor (N.land (N.shiftr id (7 * (octets_needed - 1 - i))) 127 mod 256) flag)
      (map N.of_nat (seq 0 (N.to_nat octets_needed))).
Definition encode_relative (ids : list N) : bytes := flat_map encode_arc ids.

(** src/asn1_types/oid.rs:158-180 ([Oid::from]) *)
Definition oid_from (s : list N) : oid + oid_error :=
  match s with
  | [] => inr OidTooShort
  | [s0] => if s0 =? 0 then inl (mk_oid [0] false) else inr OidTooShort
  | s0 :: s1 :: rest =>
      if (7 <=? s0) || (40 <=? s1) then inr OidFirstComponentsTooLarge
      else inl (mk_oid ((s0 * 40 + s1) mod 256 :: encode_relative rest) false)
  end.

(** src/asn1_types/oid.rs:183-192 *)
Definition oid_from_relative (s : list N) : oid + oid_error :=
  match s with
  | [] => inr OidTooShort
  | _ => inl (mk_oid (encode_relative s) true)
  end.

(** src/asn1_types/oid.rs:271-290: the bound on the arc sizes computed by [iter].
    (maximum, current) as in the fold. *)
Definition arc_bits_step (acc : N * N) (c : N) : N * N :=
  if N.shiftr c 7 =? 0 then (N.max (fst acc) (snd acc + 7), 0) else (fst acc, snd acc + 7).
Definition max_arc_bits (o : oid) : N :=
  fst (fold_left arc_bits_step (if oid_relative o then oid_asn1 o else tl (oid_asn1 o)) (0, 0)).

(** src/asn1_types/oid.rs:325-330: state of [SubIdentifierIterator]. *)
Record sub_iter := mk_sub { sub_oid : oid; sub_pos : nat; sub_first : bool }.

(** src/asn1_types/oid.rs:353-362: decoding one sub-identifier; [shl7] is the left shift of the number
    type by 7 (it drops the high bits of a [u64]; a [BigUint] has none to drop).  Gives the value and
    the number of bytes consumed. *)
Fixpoint sub_decode (shl7 : N -> N) (res : N) (bs : bytes) : N * nat :=
  match bs with
  | [] => (res, O)
  | o :: r =>
      let res := shl7 res + N.land o 127 in
      if N.shiftr o 7 =? 0 then (res, 1%nat)
      else let (v, n) := sub_decode shl7 res r in (v, S n)
  end.
Definition shl7_u64 (n : N) : N := N.shiftl n 7 mod 2 ^ 64.
Definition shl7_big (n : N) : N := N.shiftl n 7.

(** src/asn1_types/oid.rs:335-364 ([next]) *)
Definition sub_next (shl7 : N -> N) (s : sub_iter) : option N * sub_iter :=
  let bs := oid_asn1 (sub_oid s) in
  if (sub_pos s =? length bs)%nat then (None, s)
  else
    let common :=
      let (v, n) := sub_decode shl7 0 (skipn (sub_pos s) bs) in
      (Some v, mk_sub (sub_oid s) (sub_pos s + n) (sub_first s)) in
    if negb (oid_relative (sub_oid s)) then
      if negb (sub_first s) then (Some (hd 0 bs / 40), mk_sub (sub_oid s) (sub_pos s) true)
      else if (sub_pos s =? 0)%nat then
        let s' := mk_sub (sub_oid s) 1 true in
        if (hd 0 bs =? 0) && (length bs =? 1)%nat then (None, s') else (Some (hd 0 bs mod 40), s')
      else common
    else common.

(** All items: [next] until [None]. *)
Fixpoint sub_collect (shl7 : N -> N) (fuel : nat) (s : sub_iter) : list N :=
  match fuel with
  | O => []
  | S f => match sub_next shl7 s with
           | (None, _) => []
           | (Some v, s') => v :: sub_collect shl7 f s'
           end
  end.
Definition sub_new (o : oid) : sub_iter := mk_sub o 0 false.
Definition sub_items (shl7 : N -> N) (o : oid) : list N :=
  sub_collect shl7 (S (S (length (oid_asn1 o)))) (sub_new o).

(** src/asn1_types/oid.rs:267-299 ([iter]): [None] when an arc has more than 64 bits. *)
Definition oid_iter (o : oid) : option sub_iter :=
  if 64 <? max_arc_bits o then None else Some (sub_new o).
Definition oid_arcs (o : oid) : option (list N) :=
  match oid_iter o with None => None | Some _ => Some (sub_items shl7_u64 o) end.

(** src/asn1_types/oid.rs:256-265 ([iter_bigint], feature [bigint]). *)
Definition oid_arcs_bigint (o : oid) : list N := sub_items shl7_big o.

(** src/asn1_types/oid.rs:369-390 ([ExactSizeIterator::len]). *)
Definition count_ends (bs : bytes) : nat := length (filter (fun o => N.shiftr o 7 =? 0) bs).
Definition sub_len (s : sub_iter) : nat :=
  let o := sub_oid s in
  if oid_relative o then count_ends (oid_asn1 o)
  else match oid_asn1 o with
       | [] => 0
       | [b] => if b =? 0 then 1 else 2
       | _ :: _ :: r => 2 + count_ends r
       end.

(** src/asn1_types/oid.rs:301-316 *)
Definition oid_from_ber_relative (i : bytes) : res (bytes * oid) :=
  let* (rem, a) := parse_ber_any i in
  let* _ := assert_primitive (any_header a) in
  let* _ := assert_tag (any_header a) TagRelativeOid in
  Ok (rem, mk_oid (any_data a) true).
Definition oid_from_der_relative (i : bytes) : res (bytes * oid) :=
  let* (rem, a) := from_der any_codec i in
  let* _ := assert_tag (any_header a) TagRelativeOid in
  let* _ := oid_check a in
  Ok (rem, mk_oid (any_data a) true).

(** [slice::starts_with]. *)
Fixpoint is_prefix (p l : bytes) : bool :=
  match p, l with
  | [], _ => true
  | x :: p, y :: l => (x =? y) && is_prefix p l
  | _ :: _, [] => false
  end.
(** src/asn1_types/oid.rs:319-321 *)
Definition oid_starts_with (self needle : oid) : bool :=
  (length (oid_asn1 needle) <=? length (oid_asn1 self))%nat && is_prefix (oid_asn1 needle) (oid_asn1 self).

(** ** Text.  Strings are lists of code points. *)

(** Rust's [Display] for unsigned integers; [fuel] bounds the number of digits. *)
Fixpoint decimal_loop (fuel : nat) (n : N) (acc : list N) : list N :=
  match fuel with
  | O => acc
  | S f => let acc := 48 + n mod 10 :: acc in
           if n <? 10 then acc else decimal_loop f (n / 10) acc
  end.
Definition decimal (n : N) : list N := decimal_loop (S (N.to_nat (N.size n))) n [].

(** [Vec<String>::join(".")]. *)
Fixpoint join_dot (l : list (list N)) : list N :=
  match l with
  | [] => []
  | [x] => x
  | x :: r => x ++ 46 :: join_dot r
  end.

(** [str::split('.')]. *)
Fixpoint split_dot (s : list N) : list (list N) :=
  match s with
  | [] => [[]]
  | c :: r => if c =? 46 then [] :: split_dot r
              else match split_dot r with [] => [[c]] | x :: y => (c :: x) :: y end
  end.

(** [format!("{o:02x}")]. *)
Definition hex_digit (n : N) : N := if n <? 10 then 48 + n else 87 + n.
Definition hex2 (b : N) : list N := [hex_digit (b / 16); hex_digit (b mod 16)].
Fixpoint hex_spaced (bs : bytes) : list N :=
  match bs with
  | [] => []
  | [b] => hex2 b
  | b :: r => hex2 b ++ 32 :: hex_spaced r
  end.

(** src/asn1_types/oid.rs:236-254 ([to_id_string], default features) and 228-234 (feature [bigint]). *)
Definition to_id_string (o : oid) : list N :=
  match oid_arcs o with
  | Some arcs => join_dot (map decimal arcs)
  | None => hex_spaced (oid_asn1 o)
  end.
Definition to_id_string_bigint (o : oid) : list N := join_dot (map decimal (oid_arcs_bigint o)).

(** [u64::from_str]: an optional plus sign and at least one digit, the value below 2^64. *)
Fixpoint parse_digits (limit acc : N) (s : list N) : option N :=
  match s with
  | [] => Some acc
  | c :: r => if (48 <=? c) && (c <=? 57) then
                let acc := acc * 10 + (c - 48) in
                if limit <=? acc then None else parse_digits limit acc r
              else None
  end.
Definition parse_uint (limit : N) (s : list N) : option N :=
  match s with
  | [] => None
  | [c] => if (c =? 43) || (c =? 45) then None else parse_digits limit 0 [c]
  | c :: r => if c =? 43 then parse_digits limit 0 r else parse_digits limit 0 s
  end.

(** Collecting an iterator of results. *)
Fixpoint all_some {A} (l : list (option A)) : option (list A) :=
  match l with
  | [] => Some []
  | None :: _ => None
  | Some x :: r => match all_some r with Some y => Some (x :: y) | None => None end
  end.

(** src/asn1_types/oid.rs:409-417 ([FromStr]) *)
Definition oid_from_str (s : list N) : oid + oid_error :=
  match all_some (map (parse_uint (2 ^ 64)) (split_dot s)) with
  | None => inr OidParseIntError
  | Some v => oid_from v
  end.

(** src/asn1_types/oid.rs:392-399 ([Display]) *)
Definition oid_display (o : oid) : list N :=
  (if oid_relative o then [114; 101; 108; 46; 32] else []) ++ to_id_string o.

(** ** The [oid!] macro *)

(** impl/src/lib.rs:56-71 ([encode_base128]; the value is a [u128], so 19 octets suffice). *)
Fixpoint base128_loop (fuel : nat) (val : N) (acc : bytes) : bytes :=
  match fuel with
  | O => acc
  | S f => if val =? 0 then acc else base128_loop f (N.shiftr val 7) (N.lor (N.land val 0x7f) 0x80 :: acc)
  end.
Definition encode_base128 (int : N) : bytes :=
  base128_loop (N.to_nat (N.size int)) (N.shiftr int 7) [N.land int 0x7f].

(** impl/src/lib.rs:6-45 ([encode_oid!]), after the parsing of the components; [None] is a compile
    error.  The [reverse] at the end of [encode_base128] is done by consing. *)
Definition encode_oid_macro (relative : bool) (items : list N) : option bytes :=
  if relative then Some (flat_map encode_base128 items)
  else match items with
       | [] => None
       | [a] => if a =? 0 then Some [0] else None
       | a :: b :: r => if (2 <? a) || (39 <? b) then None
                        else Some ((a * 40 + b) mod 256 :: flat_map encode_base128 r)
       end.
(** src/asn1_types/oid.rs:462-480 ([oid!]) *)
Definition oid_macro (relative : bool) (items : list N) : option oid :=
  match encode_oid_macro relative items with Some bs => Some (mk_oid bs relative) | None => None end.
