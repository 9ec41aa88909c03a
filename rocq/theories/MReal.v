(** [Real], [f64] and [f32] (src/asn1_types/real.rs, src/asn1_types/real/{f32,f64}.rs).

    [f64] is Coq's executable specification of IEEE 754 ([Coq.Floats.SpecFloat], computed with [Z]), with
    53 bits of mantissa; the sign and payload of a NaN are not kept.  The functions of [core]/[std] used
    by the code ([as] casts, [fract], [powi], [str::parse], [Display]) are modelled from their
    documentation.  Overflow of [i32] and [i64] arithmetic is a panic (debug builds). *)
From Coq Require Import SpecFloat.
From Verif Require Import Base MHeader MEncode MBer MInt MOid MText.
Local Open Scope Z_scope.

(** ** [f64] *)

Definition f64 := spec_float.
Definition fmul : f64 -> f64 -> f64 := SFmul 53 1024.
Definition fdiv : f64 -> f64 -> f64 := SFdiv 53 1024.
(** [x as f64] for an integer [x]: rounds to nearest, ties to even. *)
Definition f64_of_Z (z : Z) : f64 := binary_normalize 53 1024 z 0 false.
(** [f64::EPSILON]: 2^-52. *)
Definition f64_epsilon : f64 := S754_finite false 4503599627370496 (-104).
(** [x > y]; false when one is a NaN. *)
Definition f64_gt (x y : f64) : bool := SFltb y x.
(** [x.fract() != 0.0]; the fractional part of an infinity or NaN is a NaN, which is not equal to 0. *)
Definition has_fract (x : f64) : bool :=
  match x with
  | S754_zero _ => false
  | S754_finite _ m e => match e with Zneg d => negb (Z.pos m mod 2 ^ Z.pos d =? 0) | _ => false end
  | S754_infinity _ | S754_nan => true
  end.
(** [x.is_sign_positive()]; a NaN is taken as positive. *)
Definition is_sign_positive (x : f64) : bool :=
  match x with S754_zero s | S754_infinity s | S754_finite s _ _ => negb s | S754_nan => true end.
(** The integral part of a finite number; 0 for the others. *)
Definition f64_trunc (x : f64) : Z :=
  match x with
  | S754_finite s m e => cond_Zopp s (match e with Zneg d => Z.pos m / 2 ^ Z.pos d | _ => Z.pos m * 2 ^ e end)
  | _ => 0
  end.
(** [x as u64]: towards zero, saturating, 0 for a NaN. *)
Definition f64_as_u64 (x : f64) : N :=
  match x with
  | S754_infinity false => (2 ^ 64 - 1)%N
  | _ => Z.to_N (Z.min (f64_trunc x) (2 ^ 64 - 1))
  end.
(** [f64::powi]: repeated squaring, as in [compiler_builtins] ([__powidf2]).  The documentation of Rust
    leaves its precision open. *)
Fixpoint powi_loop (n : positive) (a mul : f64) : f64 :=
  match n with
  | xH => fmul mul a
  | xO n' => powi_loop n' (fmul a a) mul
  | xI n' => powi_loop n' (fmul a a) (fmul mul a)
  end.
Definition powi (a : f64) (n : Z) : f64 :=
  match n with
  | Z0 => f64_of_Z 1
  | Zpos p => powi_loop p a (f64_of_Z 1)
  | Zneg p => fdiv (f64_of_Z 1) (powi_loop p a (f64_of_Z 1))
  end.

(** ** Integers of fixed width *)

Definition i32_min : Z := - 2 ^ 31.
Definition i32_max : Z := 2 ^ 31 - 1.
(** Result of an [i32] operation; overflow panics. *)
Definition as_i32 (z : Z) : res Z := if (i32_min <=? z) && (z <=? i32_max) then Ok z else Panic.
(** The [i32] with the same low 32 bits ([<<], [|]). *)
Definition wrap_i32 (z : Z) : Z := (z + 2 ^ 31) mod 2 ^ 32 - 2 ^ 31.
(** The [i64] with the same low 64 bits. *)
Definition wrap_i64 (z : Z) : Z := (z + 2 ^ 63) mod 2 ^ 64 - 2 ^ 63.

(** src/asn1_types/real.rs:13-30 ([Real]); [Binary] has public fields, so any value of them is possible. *)
Inductive real :=
| RBinary (mantissa : f64) (base : N) (exponent : Z) (enc_base : N)
| RInfinity | RNaN | RNegInfinity | RZero.

(** src/asn1_types/real.rs:46-51: the loop of [Real::new]. *)
Fixpoint new_loop (fuel : nat) (f : f64) (e : Z) : res (f64 * Z) :=
  match fuel with
  | O => Err EFuel
  | S n => if has_fract f then let* e := as_i32 (e - 1) in new_loop n (fmul f (f64_of_Z 10)) e else Ok (f, e)
  end.
(** src/asn1_types/real.rs:89: [m.abs() > EPSILON && m.rem_euclid(10.0).abs() < EPSILON], for the integers
    which reach it. *)
Definition is_tenfold (m : f64) : bool := f64_gt (SFabs m) f64_epsilon && (f64_trunc m mod 10 =? 0).
(** src/asn1_types/real.rs:87-92: the loop of [normalize_base10]. *)
Fixpoint normalize_loop (fuel : nat) (m : f64) (e : Z) : res (f64 * Z) :=
  match fuel with
  | O => Err EFuel
  | S n => if is_tenfold m then let* e := as_i32 (e + 1) in normalize_loop n (fdiv m (f64_of_Z 10)) e
           else Ok (m, e)
  end.
(** src/asn1_types/real.rs:34-60 and 79-102 ([Real::new], [normalize_base10]). *)
Definition real_new (f : f64) : res real :=
  match f with
  | S754_infinity s => Ok (if s then RNegInfinity else RInfinity)
  | S754_nan => Ok RNaN
  | S754_zero _ => Ok RZero
  | S754_finite _ _ _ =>
      let* (m, e) := new_loop 400 f 0 in
      let* (m, e) := normalize_loop 400 m e in
      Ok (RBinary m 10 e 10)
  end.
(** src/asn1_types/real.rs:106-113 ([Real::binary]). *)
Definition real_binary (m : f64) (base : N) (e : Z) : real := RBinary m base e 2.
(** src/asn1_types/real.rs:62-77 ([with_enc_base]). *)
Definition with_enc_base (r : real) (b : N) : real :=
  match r with RBinary m base e _ => RBinary m base e b | _ => r end.

(** src/asn1_types/real.rs:131-148 ([Real::f64]). *)
Definition real_f64 (r : real) : f64 :=
  match r with
  | RBinary m base e _ => fmul m (powi (f64_of_Z (Z.of_N base)) e)
  | RZero => S754_zero false
  | RNaN => S754_nan
  | RInfinity => S754_infinity false
  | RNegInfinity => S754_infinity true
  end.
(** [x as f32]: rounds to 24 bits. *)
Definition f64_as_f32 (x : f64) : spec_float :=
  match x with S754_finite s m e => binary_round 24 128 s m e | _ => x end.
(** src/asn1_types/real.rs:153-155 ([Real::f32]). *)
Definition real_f32 (r : real) : spec_float := f64_as_f32 (real_f64 r).

(** ** [str::parse::<f64>] *)

Definition lower (c : N) : N := if ((65 <=? c) && (c <=? 90))%N then (c + 32)%N else c.
Definition is_digit (c : N) : bool := ((48 <=? c) && (c <=? 57))%N.
(** The leading digits and what follows. *)
Fixpoint span_digits (s : list N) : list N * list N :=
  match s with
  | c :: r => if is_digit c then let (d, r) := span_digits r in (c :: d, r) else ([], s)
  | [] => ([], [])
  end.
Definition digits_value (d : list N) : Z := fold_left (fun acc c => acc * 10 + Z.of_N (c - 48)) d 0.
(** An optional sign: negative or not, and what follows. *)
Definition span_sign (s : list N) : bool * list N :=
  match s with
  | c :: r => if (c =? 43)%N then (false, r) else if (c =? 45)%N then (true, r) else (false, s)
  | [] => (false, [])
  end.
(** The number nearest to num/den, ties to even. *)
Definition round_ratio (s : bool) (num den : positive) : f64 :=
  let '(q, e, l) := SFdiv_core_binary 53 1024 (Zpos num) 0 (Zpos den) 0 in
  binary_round_aux 53 1024 s q e l.
(** The number nearest to d 10^x. *)
Definition round_decimal (s : bool) (d x : Z) : f64 :=
  match d with
  | Zpos p => match x with
              | Zneg k => round_ratio s p (Z.to_pos (10 ^ Z.pos k))
              | _ => binary_round 53 1024 s (p * Z.to_pos (10 ^ x)) 0
              end
  | _ => S754_zero s
  end.
(** The optional exponent, to the end of the text. *)
Definition parse_exponent (s : list N) : option Z :=
  match s with
  | [] => Some 0
  | c :: r =>
      if (lower c =? 101)%N then
        let (neg, r) := span_sign r in
        let (d, r) := span_digits r in
        match d, r with
        | _ :: _, [] => Some (if neg then - digits_value d else digits_value d)
        | _, _ => None
        end
      else None
  end.
Definition parse_number (neg : bool) (s : list N) : option f64 :=
  let (int, r) := span_digits s in
  let (frac, r) := match r with
                   | c :: r' => if (c =? 46)%N then span_digits r' else ([], r)
                   | [] => ([], [])
                   end in
  match int, frac with
  | [], [] => None
  | _, _ => match parse_exponent r with
            | Some x => Some (round_decimal neg (digits_value (int ++ frac)) (x - Z.of_nat (length frac)))
            | None => None
            end
  end.
Definition list_eqb (a b : list N) : bool := if list_eq_dec N.eq_dec a b then true else false.
(** [f64::from_str]: the grammar of its documentation, correctly rounded. *)
Definition parse_f64 (s : list N) : option f64 :=
  let (neg, r) := span_sign s in
  let l := map lower r in
  if list_eqb l [105; 110; 102]%N || list_eqb l [105; 110; 102; 105; 110; 105; 116; 121]%N
  then Some (S754_infinity neg)
  else if list_eqb l [110; 97; 110]%N then Some S754_nan
  else parse_number neg r.

(** ** Reading *)

(** src/asn1_types/real.rs:233-243: the exponent, from all ones or 0. *)
Definition read_exponent (eo : bytes) : Z :=
  fold_left (fun e b => wrap_i32 (e * 256 + Z.of_N b)) eo
            (if (128 <=? hd 0 eo)%N then -1 else 0).
(** src/asn1_types/real.rs:272-275: the mantissa. *)
Definition read_mantissa (bs : bytes) : Z := fold_left (fun p b => wrap_i64 (p * 256 + Z.of_N b)) bs 0.
(** src/asn1_types/real.rs:212-293: the binary form.  The arm of line 216 (exponent length in an octet of its
    own) cannot be reached: the value matched is at most 3. *)
Definition decode_binary (first : N) (rem : bytes) : res real :=
  let n := (first mod 4 + 1)%N in
  if (blen rem <=? n)%N then Err EInvalidValue
  else
    let eo := firstn (N.to_nat n) rem in
    let rem := skipn (N.to_nat n) rem in
    let e := read_exponent eo in
    let b := ((first / 16) mod 4)%N in
    if (b =? 3)%N then Err EInvalidValue
    else
      let* e := as_i32 (e * (if (b =? 0)%N then 1 else if (b =? 1)%N then 3 else 4)) in
      if (8 <? blen rem)%N then Err EInvalidValue
      else
        let p := read_mantissa rem in
        let* p := if ((first / 64) mod 2 =? 1)%N then (if p =? - 2 ^ 63 then Panic else Ok (- p)) else Ok p in
        let sf := ((first / 4) mod 4)%N in
        let m := if (sf =? 0)%N then f64_of_Z p else fmul (f64_of_Z p) (powi (f64_of_Z 2) (Z.of_N sf)) in
        Ok (RBinary m 2 e (if (b =? 0)%N then 2 else if (b =? 1)%N then 8 else 16)%N).
(** src/asn1_types/real.rs:310-331: the decimal form. *)
Definition decode_decimal_form (first : N) (rem : bytes) : res real :=
  match from_utf8 rem with
  | None => Err EStringInvalidCharset
  | Some s =>
      if (first mod 4 =? 1)%N then
        match parse_uint (2 ^ 32) s with None => Err EInvalidValue | Some v => real_new (f64_of_Z (Z.of_N v)) end
      else if (first mod 4 =? 0)%N then Err EInvalidValue
      else match parse_f64 s with None => Err EInvalidValue | Some v => real_new v end
  end.
(** src/asn1_types/real.rs:204-332 ([decode_real]). *)
Definition decode_real (h : header) (i : bytes) : res real :=
  match i with
  | [] => Ok RZero
  | first :: rem =>
      if ((first / 128) mod 2 =? 1)%N then decode_binary first rem
      else if ((first / 64) mod 2 =? 1)%N then
        if negb (blength_eqb (h_length h) (Definite 1)) then Err EInvalidLength
        else if (first =? 64)%N then Ok RInfinity
        else if (first =? 65)%N then Ok RNegInfinity
        else if (first =? 66)%N then Ok RNaN
        else Err EInvalidValue
      else decode_decimal_form first rem
  end.
(** src/asn1_types/real.rs:160-176 and 178-187 ([BerParser], [DerParser]) *)
Definition real_content (h : header) (i : bytes) : res (bytes * real) :=
  let* _ := assert_primitive h in
  let* r := decode_real h i in
  Ok ([], r).
(** src/asn1_types/real.rs:189-196 ([CheckDerConstraints]) *)
Definition real_check (a : any) : res unit :=
  let* _ := assert_primitive (any_header a) in length_assert_definite (h_length (any_header a)).
Definition real_codec : codec real :=
  mk_codec (is_tag TagRealType) real_content real_content
           (default_try_from (is_tag TagRealType) real_content) real_check.

(** src/asn1_types/real/f64.rs:10-21 and 23-34 *)
Definition f64_content (h : header) (i : bytes) : res (bytes * f64) :=
  let* (rem, r) := real_content h i in Ok (rem, real_f64 r).
(** src/asn1_types/real/f64.rs:8, 36-48 *)
Definition f64_codec : codec f64 :=
  mk_codec (is_tag TagRealType) f64_content f64_content
           (default_try_from (is_tag TagRealType) f64_content) real_check.
(** src/asn1_types/real/f32.rs:10-21 and 23-34 *)
Definition f32_content (h : header) (i : bytes) : res (bytes * spec_float) :=
  let* (rem, r) := real_content h i in Ok (rem, real_f32 r).
(** src/asn1_types/real/f32.rs:8, 36-48 *)
Definition f32_codec : codec spec_float :=
  mk_codec (is_tag TagRealType) f32_content f32_content
           (default_try_from (is_tag TagRealType) f32_content) real_check.

(** ** Writing *)

(** [x.abs()] for an [i32]. *)
Definition i32_abs (e : Z) : res Z := as_i32 (Z.abs e).
(** src/asn1_types/real.rs:515-522: the loop of [drop_floating_point]. *)
Fixpoint drop_loop (fuel : nat) (b : N) (m : f64) (e : Z) : res (f64 * Z) :=
  match fuel with
  | O => Err EFuel
  | S n =>
      if f64_gt (SFabs m) f64_epsilon then
        if has_fract m then let* e := as_i32 (e - 1) in drop_loop n b (fmul m (f64_of_Z (Z.of_N b))) e
        else Ok (m, e)
      else Ok (m, e)
  end.
(** src/asn1_types/real.rs:503-513: the change of base. *)
Definition change_base (b : N) (m : f64) (e : Z) : res (f64 * Z) :=
  let d := if (b =? 8)%N then 3 else if (b =? 16)%N then 4 else 0 in
  if d =? 0 then Ok (m, e)
  else
    let* a := i32_abs e in
    let k := (a / d) * (if 0 <? e then 1 else -1) in
    Ok (fmul m (powi (f64_of_Z 2) k), k).
(** src/asn1_types/real.rs:500-524 ([drop_floating_point]): negative or not, mantissa, exponent.  More fuel
    than needed for a finite mantissa and base 2, 8 or 16. *)
Definition drop_floating_point (m : f64) (b : N) (e : Z) : res (bool * N * Z) :=
  let* (m', e) := change_base b (SFabs m) e in
  let* (m', e) := drop_loop 1200 b m' e in
  Ok (negb (is_sign_positive m), f64_as_u64 m', e).
(** src/asn1_types/real.rs:395-416: while the low [k] bits of the mantissa are 0, shift. *)
Fixpoint shift_loop (fuel : nat) (k : N) (m : N) (e : Z) : res (N * Z) :=
  match fuel with
  | O => Err EFuel
  | S n => if (m mod 2 ^ k =? 0)%N then let* e := as_i32 (e + 1) in shift_loop n k (m / 2 ^ k)%N e
           else Ok (m, e)
  end.
(** src/asn1_types/real.rs:419-423: the scale factor. *)
Fixpoint scale_loop (fuel : nat) (m sf : N) : N * N :=
  match fuel with
  | O => (m, sf)
  | S n => if (m mod 2 =? 0)%N && (sf <? 4)%N then scale_loop n (m / 2)%N (sf + 1)%N else (m, sf)
  end.
(** src/asn1_types/real.rs:426-433: the number of octets of the exponent, from its absolute value. *)
Definition exponent_octets (a : Z) : N :=
  if a <=? 255 then 1%N else if a <=? 65535 then 2%N else if a <=? 16777215 then 3%N else 4%N.
(** src/asn1_types/real.rs:452-460: the octets of the mantissa without leading zeroes. *)
Fixpoint drop_zeroes (bs : bytes) : bytes :=
  match bs with
  | b :: r => if (b =? 0)%N then drop_zeroes r else bs
  | [] => []
  end.
(** src/asn1_types/real.rs:385-463: the binary form. *)
Definition real_binary_content (mantissa : f64) (exponent : Z) (enc_base : N) : res bytes :=
  let* (neg, m, e) := drop_floating_point mantissa enc_base exponent in
  if (m =? 0)%N then Panic
  else
    let k := if (enc_base =? 2)%N then 1%N else if (enc_base =? 8)%N then 3%N else 4%N in
    let* (m, e) := shift_loop 64 k m e in
    let (m, sf) := scale_loop 5 m 0 in
    let* a := i32_abs e in
    let len_e := exponent_octets a in
    let first := N.lor (N.lor (N.lor (N.lor 128 (if neg then 64 else 0))
                              (if (enc_base =? 2)%N then 0 else if (enc_base =? 8)%N then 16 else 32))
                       (N.shiftl sf 2 mod 256))
                       ((len_e - 1) mod 4) in
    Ok (first :: (if (len_e =? 4)%N then [len_e] else [])
        ++ skipn (N.to_nat (4 - len_e)) (be_bytes 4 (Z.to_N (e mod 2 ^ 32)))
        ++ drop_zeroes (be_bytes 8 m)).

(** *** [Display for f64]: the shortest decimal digits which read back as the number, without exponent *)

(** Candidates with [k] digits: the two integers around |x| 10^-y. *)
Definition shortest_with (x : f64) (m : positive) (e y : Z) : option Z :=
  let num := Z.pos m * 2 ^ Z.max e 0 * 10 ^ Z.max (- y) 0 in
  let den := 2 ^ Z.max (- e) 0 * 10 ^ Z.max y 0 in
  let q := num / den in
  let ok d := match round_decimal false d y, SFabs x with
              | S754_finite _ m1 e1, S754_finite _ m2 e2 => (m1 =? m2)%positive && (e1 =? e2)
              | _, _ => false
              end in
  if 2 * (num mod den) <=? den then (if ok q then Some q else if ok (q + 1) then Some (q + 1) else None)
  else (if ok (q + 1) then Some (q + 1) else if ok q then Some q else None).
(** Fewer digits first: [y] counts down from the position of the leading digit. *)
Fixpoint shortest_loop (fuel : nat) (x : f64) (m : positive) (e y : Z) : Z * Z :=
  match fuel with
  | O => (0, 0)
  | S n => match shortest_with x m e y with Some d => (d, y) | None => shortest_loop n x m e (y - 1) end
  end.
Definition decimal_Z (z : Z) : list N := if z <? 0 then 45%N :: decimal (Z.to_N (- z)) else decimal (Z.to_N z).
(** [d 10^y] without exponent. *)
Definition plain_decimal (d y : Z) : list N :=
  let t := decimal (Z.to_N d) in
  if 0 <=? y then t ++ repeat 48%N (Z.to_nat y)
  else
    let k := Z.to_nat (- y) in
    let t := repeat 48%N (S k - length t) ++ t in
    firstn (length t - k) t ++ [46%N] ++ skipn (length t - k) t.
(** An integer below 2^53 is printed as it is: no other integer within half a unit reads back as it. *)
Definition show_f64 (x : f64) : list N :=
  match x with
  | S754_nan => [78; 97; 78]%N
  | S754_infinity s => (if s then [45] else [])%N ++ [105; 110; 102]%N
  | S754_zero s => (if s then [45; 48] else [48])%N
  | S754_finite s m e =>
      (if s then [45%N] else [])
      ++ (if negb (has_fract x) && (Z.abs (f64_trunc x) <? 2 ^ 53) then decimal (Z.to_N (Z.abs (f64_trunc x)))
          else let (d, y) := (let b := Z.pos (digits2_pos m) + e in shortest_loop 60 x m e (Z.max (b * 4 / 13) (b * 3 / 10) + 1)) in
               plain_decimal d y)
  end.
(** src/asn1_types/real.rs:375-381: the character form. *)
Definition real_text (m : f64) (e : Z) : bytes :=
  3%N :: show_f64 m ++ [69%N] ++ (if e =? 0 then [43%N] else []) ++ decimal_Z e.

(** src/asn1_types/real.rs:354-466 ([ber_write_content]) *)
Definition real_write (r : real) : wres :=
  let* c := match r with
            | RZero => Ok []
            | RInfinity => Ok [64%N]
            | RNegInfinity => Ok [65%N]
            | RNaN => Ok [66%N]
            | RBinary m base e enc_base =>
                if (base =? 10)%N then Ok (real_text m e)
                else if negb (base =? 2)%N then Err EInvalidValue
                else real_binary_content m e enc_base
            end in
  Ok (c, blen c).
(** src/asn1_types/real.rs:342-352 ([ber_content_len]); a panic of the writer shows in [real_write]. *)
Definition real_content_len (r : real) : blength :=
  match real_write r with Ok (_, n) => Definite n | _ => Definite 0 end.
(** src/asn1_types/real.rs:339-473 *)
Definition tober_real (r : real) : tober :=
  mk_tober (EncPrimitive TagRealType) Universal false TagRealType (real_content_len r) (real_write r).
(** src/asn1_types/real/f64.rs:56-74 ([ToBer for f64]); [f32] is the same, its conversion to [f64] being
    exact (src/asn1_types/real/f32.rs:56-74, src/asn1_types/real.rs:476-480). *)
Definition tober_f64 (x : f64) : tober :=
  match real_new x with
  | Ok r => tober_real r
  | Err e => mk_tober (EncPrimitive TagRealType) Universal false TagRealType (Definite 0) (Err e)
  | _ => mk_tober (EncPrimitive TagRealType) Universal false TagRealType (Definite 0) Panic
  end.
