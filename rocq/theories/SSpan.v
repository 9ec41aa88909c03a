(** Specification of spans. *)
From Verif Require Import Base MHeader MSpan.

(** An input is a part of [whole], and its range says where. *)
Definition located (whole : bytes) (i : input) : Prop :=
  exists pre post, whole = pre ++ in_data i ++ post /\ in_start i = blen pre /\ in_end i = blen pre + blen (in_data i).

(** [b] begins where [a] ends. *)
Definition adjacent (a b : input) : Prop := in_end a = in_start b.

(** A header read from [i] with remainder [rem]: its raw octets are what was consumed. *)
Definition header_layout (whole : bytes) (i : input) (h : sheader) (rem : input) : Prop :=
  exists raw, sh_raw h = Some raw /\ h_raw_header (sh_fields h) = Some (in_data raw) /\ located whole raw
    /\ in_start raw = in_start i /\ adjacent raw rem /\ in_end rem = in_end i /\ located whole rem.

(** An object read from [i]: header, content, closing octets (two, for an indefinite length) and remainder in a row. *)
Definition object_layout (whole : bytes) (i : input) (h : sheader) (data rem : input) : Prop :=
  exists raw, sh_raw h = Some raw /\ h_raw_header (sh_fields h) = Some (in_data raw) /\ located whole raw
    /\ in_start raw = in_start i /\ adjacent raw data /\ located whole data
    /\ in_end data + (if is_definite (h_length (sh_fields h)) then 0 else 2) = in_start rem
    /\ in_end rem = in_end i /\ located whole rem.
