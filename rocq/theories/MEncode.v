(** Model of the BER/DER encoders (src/to_ber.rs, src/to_ber/*.rs, src/to_der.rs).
    A writer is modelled by the bytes it appends and the count it returns. *)
From Verif Require Import Base MHeader.

Definition wres := res (bytes * N).

(** Sequential writes: bytes are appended, counts are added. *)
Definition wseq (a b : wres) : wres :=
  let* (x, n) := a in
  let* (y, m) := b in
  Ok (x ++ y, n + m).

(** src/to_ber/encoder.rs:62-73: the loop filling the 8-byte buffer from the right.
    [idx] is [current_index]; [buf] is [buffer[current_index..]]. *)
Fixpoint write_tag_loop (idx : nat) (val : N) (buf : bytes) : res bytes :=
  if val =? 0 then Ok buf
  else match idx with
       | O => Panic
       | S O => Err ETagTooLong
       | S idx' => write_tag_loop idx' (N.shiftr val 7) (N.lor (N.land val 0x7f) 0x80 :: buf)
       end.

(** src/to_ber/encoder.rs:28-80 ([write_tag_generic]). *)
Definition write_tag_generic (c : class) (constructed : bool) (tag : N) : wres :=
  let cs := if constructed then 0x20 else 0 in
  if tag <? 31 then
    Ok ([N.lor (N.lor (N.shiftl (class_num c) 6) cs) tag], 1)
  else
    let b0 := N.lor (N.lor (N.shiftl (class_num c) 6) cs) 0x1f in
    let* buf := write_tag_loop 7 (N.shiftr tag 7) [N.land tag 0x7f] in
    Ok (b0 :: buf, 1 + blen buf).

(** src/to_ber/encoder.rs:104-108: skip leading zero bytes (index panics past the end). *)
Fixpoint skip_zeroes (b : bytes) : res bytes :=
  match b with
  | [] => Panic
  | x :: r => if x =? 0 then skip_zeroes r else Ok b
  end.

(** src/to_ber/encoder.rs:83-119 ([write_length]); [usize] is 8 bytes. *)
Definition write_length (l : blength) : wres :=
  match l with
  | Indefinite => Ok ([0x80], 1)
  | Definite n =>
      if n <=? 127 then Ok ([n], 1)
      else
        let* b := skip_zeroes (be_bytes 8 n) in
        Ok (N.lor 0x80 (blen b) :: b, 1 + blen b)
  end.

(** The encoders: src/to_ber/primitive.rs, constructed.rs, constructed_indefinite.rs, generic.rs. *)
Inductive encoder := EncPrimitive (tag : N) | EncConstructed | EncConstructedIndefinite | EncGeneric.

(** [BerEncoder::write_tag_info]: primitive.rs:28-36, constructed.rs:27-35,
    constructed_indefinite.rs:29-37, encoder.rs:15-23. *)
Definition write_tag_info (e : encoder) (c : class) (k : bool) (t : N) : wres :=
  match e with
  | EncPrimitive tag => write_tag_generic Universal false tag
  | EncConstructed | EncConstructedIndefinite => write_tag_generic c true t
  | EncGeneric => write_tag_generic c k t
  end.

(** src/to_ber.rs:151-167 ([ber_tag_length]). Fuel 5 covers the five 7-bit groups of a u32. *)
Fixpoint tag_length_loop (fuel : nat) (val sz : N) : N :=
  if val <=? 127 then sz + 1
  else match fuel with
       | O => sz + 1
       | S f => tag_length_loop f (N.shiftr val 7) (sz + 1)
       end.
Definition ber_tag_length (tag : N) : N :=
  if tag <=? 30 then 1 else tag_length_loop 5 tag 1.

(** src/to_ber.rs:170-181 ([ber_length_length]). *)
Definition ber_length_length (l : blength) : res N :=
  match l with
  | Indefinite => Ok 1
  | Definite l =>
      if l <=? 0x7f then Ok 1
      else if l <=? 0xff then Ok 2
      else if l <=? 0xffff then Ok 3
      else if l <=? 0xffffffff then Ok 4
      else Err EInvalidLength
  end.

(** src/to_ber.rs:194-198 ([ber_header_length]). *)
Definition ber_header_length (tag : N) (l : blength) : res N :=
  let* n := ber_length_length l in
  Ok (ber_tag_length tag + n).

(** [.unwrap_or(0)] *)
Definition unwrap_or0 (r : res N) : N := match r with Ok n => n | _ => 0 end.

(** src/to_ber.rs:186-189 ([ber_total_length]). *)
Definition ber_total_length (tag : N) (content : blength) : blength :=
  length_add content (Definite (unwrap_or0 (ber_header_length tag content))).

(** What the [ToBer]/[ToDer] implementation of a value provides:
    [type Encoder], [ber_tag_info], [ber_content_len], [ber_write_content]
    (src/to_ber.rs:23-44, src/to_der.rs:39-60). *)
Record tober := mk_tober {
  tb_encoder : encoder;
  tb_class : class;
  tb_constructed : bool;
  tb_tag : N;
  tb_content_len : blength;
  tb_write_content : wres
}.

(** src/to_ber.rs:32-36, src/to_der.rs:48-52 ([ber_total_len], [der_total_len]). *)
Definition total_len (v : tober) : blength := ber_total_length (tb_tag v) (tb_content_len v).

(** src/to_ber.rs:49-61, src/to_der.rs:65-77 ([ber_write_header]). *)
Definition write_header (v : tober) : wres :=
  wseq (write_tag_info (tb_encoder v) (tb_class v) (tb_constructed v) (tb_tag v))
       (write_length (tb_content_len v)).

(** src/to_ber.rs:66-70, src/to_der.rs:82-86 ([ber_encode], [der_encode]). *)
Definition encode (v : tober) : wres := wseq (write_header v) (tb_write_content v).

(** src/header.rs:413-443 ([ToBer]/[ToDer for Header]). *)
Definition tober_header (h : header) : tober :=
  mk_tober EncGeneric (h_class h) (h_constructed h) (h_tag h) (h_length h) (Ok ([], 0)).

(** src/to_ber.rs:77-90, src/to_der.rs:93-106 ([ber_encode_tagged_explicit]). *)
Definition encode_tagged_explicit (c : class) (tag : N) (v : tober) : wres :=
  wseq (wseq (write_header (tober_header (header_new c true tag (total_len v))))
             (write_header v))
       (tb_write_content v).

(** src/to_ber.rs:97-109, src/to_der.rs:113-125 ([ber_encode_tagged_implicit]). *)
Definition encode_tagged_implicit (c : class) (tag : N) (v : tober) : wres :=
  wseq (write_header (tober_header (header_new c (tb_constructed v) tag (tb_content_len v))))
       (tb_write_content v).

(** src/to_ber.rs:112-116, src/to_der.rs:128-132 ([to_ber_vec], [to_der_vec]). *)
Definition to_vec (v : tober) : res bytes :=
  let* (b, _) := encode v in Ok b.

(** src/to_ber.rs:206-212, src/to_der.rs:237-243 ([ber_length_constructed_items]). *)
Definition length_constructed_items (vs : list tober) : blength := length_sum (map total_len vs).

(** Writing items one after the other: [try_fold(0, |acc, t| acc + t.ber_encode(target)?)]
    (src/asn1_types/sequence/vec.rs, sequence_of.rs, set_of.rs,
    src/to_ber/constructed_indefinite.rs:69-72). *)
Fixpoint write_items (vs : list tober) : wres :=
  match vs with
  | [] => Ok ([], 0)
  | v :: r => wseq (encode v) (write_items r)
  end.
