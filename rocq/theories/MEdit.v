(** Headers and objects built by hand or changed after reading. *)
From Verif Require Import Base MHeader MEncode MBer MInt MCont.

(** src/header.rs:53-57 ([Header::new_simple]), src/header.rs:296-302 ([From<Tag>]). *)
Definition header_new_simple (t : N) : header :=
  header_new Universal ((t =? TagSequence) || (t =? TagSet)) t (Definite 0).

(** src/header.rs:60-63 ([with_class]), 66-72 ([with_constructed]), 81-84 ([with_length]); [with_tag] (75-78) is in MCont.v. *)
Definition with_class (h : header) (c : class) : header :=
  mk_header c (h_constructed h) (h_tag h) (h_length h) (h_raw_tag h) (h_raw_header h).
Definition with_constructed (h : header) (k : bool) : header :=
  mk_header (h_class h) k (h_tag h) (h_length h) (h_raw_tag h) (h_raw_header h).
Definition with_length (h : header) (l : blength) : header :=
  mk_header (h_class h) (h_constructed h) (h_tag h) l (h_raw_tag h) (h_raw_header h).

(** src/asn1_types/any.rs:28-30 ([Any::new]), 33-39 ([from_header_and_data]). *)
Definition any_new (h : header) (d : bytes) : any := mk_any h d.
(** src/asn1_types/any.rs:65-71 ([Any::with_class]) and 80-86 ([Any::with_tag]); [from_tag_and_data] (42-57) is
    [any_from_tag_and_data] of MInt.v. *)
Definition any_with_class (a : any) (c : class) : any := mk_any (with_class (any_header a) c) (any_data a).
Definition any_with_tag (a : any) (t : N) : any := mk_any (with_tag (any_header a) t) (any_data a).
