(** Model of UTCTime and GeneralizedTime.

    Texts are byte lists (the formatted texts are ASCII).  [write!]/[format!] with [{:02}]/[{:04}] are written
    out from their documentation. *)
From Verif Require Import Base MHeader MEncode MBer MInt MSeg MOid MText.

(** src/datetime.rs:9-31 ([ASN1TimeZone], [ASN1DateTime]). *)
Inductive tz := TzUndefined | TzZ | TzOffset (h m : Z).
Record datetime := mk_datetime {
  dt_year : N; dt_month : N; dt_day : N; dt_hour : N; dt_minute : N; dt_second : N;
  dt_millisecond : option N; dt_tz : tz
}.

(** [u8::is_ascii_digit]. *)
Definition is_digit (b : N) : bool := (48 <=? b) && (b <=? 57).

(** src/datetime.rs:103-109 *)
Definition decode_decimal (hi lo : N) : res N :=
  if is_digit hi && is_digit lo then Ok ((hi - 48) * 10 + (lo - 48)) else Err EInvalidValue.

(** src/asn1_types/utctime.rs:39-52 and src/asn1_types/generalizedtime.rs:43-62: seconds, and the range checks. *)
Definition time_seconds (rem : bytes) : res (N * bytes) :=
  match rem with
  | [] => Err EInvalidValue
  | s1 :: s2 :: rem => let* s := decode_decimal s1 s2 in Ok (s, rem)
  | _ => Ok (0, rem)
  end.
Definition time_in_range (month day hour minute second : N) : bool :=
  negb ((12 <? month) || (31 <? day) || (23 <? hour) || (59 <? minute) || (59 <? second)).

(** src/asn1_types/utctime.rs:53-69 and src/asn1_types/generalizedtime.rs:140-153 *)
Definition time_zone (rem : bytes) : res tz :=
  match rem with
  | [c] => if c =? 90 then Ok TzZ else Err EInvalidValue
  | [s; h1; h2; m1; m2] =>
      if s =? 43 then
        let* hh := decode_decimal h1 h2 in
        let* mm := decode_decimal m1 m2 in
        Ok (TzOffset (Z.of_N hh) (Z.of_N mm))
      else if s =? 45 then
        let* hh := decode_decimal h1 h2 in
        let* mm := decode_decimal m1 m2 in
        Ok (TzOffset (- Z.of_N hh) (Z.of_N mm))
      else Err EInvalidValue
  | _ => Err EInvalidValue
  end.

(** src/asn1_types/utctime.rs:15-79 ([UtcTime::from_bytes]). *)
Definition utc_from_bytes (bytes : bytes) : res datetime :=
  match bytes with
  | y1 :: y2 :: mo1 :: mo2 :: d1 :: d2 :: h1 :: h2 :: mi1 :: mi2 :: rem =>
      let* year := decode_decimal y1 y2 in
      let* month := decode_decimal mo1 mo2 in
      let* day := decode_decimal d1 d2 in
      let* hour := decode_decimal h1 h2 in
      let* minute := decode_decimal mi1 mi2 in
      let* (second, rem) := time_seconds rem in
      if negb (time_in_range month day hour minute second) then Err EInvalidValue
      else
        let* z := time_zone rem in
        Ok (mk_datetime year month day hour minute second None z)
  | _ => Err EInvalidValue
  end.

(** src/asn1_types/generalizedtime.rs:79-114: the loop over at most four digits; [idx] is the loop
    variable.  Returns [fsecond], [digits] and [rem]. *)
Fixpoint frac_loop (idx : nat) (fsecond : N) (rem : bytes) : res (N * nat * bytes) :=
  match rem with
  | [] => if (idx =? 0)%nat then Err EInvalidValue else Ok (fsecond, idx, [])
  | b :: r =>
      if (idx =? 4)%nat then Err EInvalidValue
      else if is_digit b then frac_loop (S idx) (fsecond * 10 + (b - 48)) r
      else if (b =? 90) || (b =? 43) || (b =? 45) then Ok (fsecond, idx, rem)
      else Err EInvalidValue
  end.

(** src/asn1_types/generalizedtime.rs:76-125 *)
Definition time_fraction (rem : bytes) : res (option N * bytes) :=
  match rem with
  | c :: r =>
      if (c =? 46) || (c =? 44) then
        let* (fsecond, digits, rem) := frac_loop 0 0 r in
        Ok (Some (match digits with 1%nat => fsecond * 100 | 2%nat => fsecond * 10 | _ => fsecond end), rem)
      else Ok (None, rem)
  | [] => Ok (None, rem)
  end.

(** src/asn1_types/generalizedtime.rs:18-163 ([GeneralizedTime::from_bytes]). *)
Definition gen_from_bytes (bytes : bytes) : res datetime :=
  match bytes with
  | y1 :: y2 :: y3 :: y4 :: mo1 :: mo2 :: d1 :: d2 :: h1 :: h2 :: mi1 :: mi2 :: rem =>
      let* year_hi := decode_decimal y1 y2 in
      let* year_lo := decode_decimal y3 y4 in
      let year := year_hi * 100 + year_lo in
      let* month := decode_decimal mo1 mo2 in
      let* day := decode_decimal d1 d2 in
      let* hour := decode_decimal h1 h2 in
      let* minute := decode_decimal mi1 mi2 in
      let* (second, rem) := time_seconds rem in
      if negb (time_in_range month day hour minute second) then Err EInvalidValue
      else if blen rem =? 0 then Ok (mk_datetime year month day hour minute second None TzUndefined)
      else
        let* (millisecond, rem) := time_fraction rem in
        if blen rem =? 0 then Ok (mk_datetime year month day hour minute second millisecond TzUndefined)
        else
          let* z := time_zone rem in
          Ok (mk_datetime year month day hour minute second millisecond z)
  | _ => Err EInvalidValue
  end.

(** src/asn1_types/utctime.rs:135-163 (BER) *)
Definition utc_ber_content (h : header) (i : bytes) : res (bytes * datetime) :=
  if h_constructed h then Err EUnsupported
  else if negb (forallb is_visible i) then Err EStringInvalidCharset
  else let* t := utc_from_bytes i in Ok ([], t).
(** src/asn1_types/utctime.rs:165-191 (DER) *)
Definition utc_der_content (h : header) (i : bytes) : res (bytes * datetime) :=
  let* _ := assert_primitive h in
  if negb (forallb is_visible i) then Err EStringInvalidCharset
  else let* t := utc_from_bytes i in Ok ([], t).
(** src/asn1_types/utctime.rs:133, 214-224 *)
Definition utc_codec : codec datetime :=
  mk_codec (is_tag TagUtcTime) utc_ber_content utc_der_content
           (default_try_from (is_tag TagUtcTime) utc_ber_content) (fun _ => Ok tt).

(** src/asn1_types/generalizedtime.rs:176-204 (BER) *)
Definition gen_ber_content (h : header) (i : bytes) : res (bytes * datetime) :=
  if h_constructed h then Err EUnsupported
  else if negb (forallb is_visible i) then Err EStringInvalidCharset
  else let* t := gen_from_bytes i in Ok ([], t).
(** src/asn1_types/generalizedtime.rs:228-243 and 281-295: the DER constraints on the content. *)
Definition gen_der_text (i : bytes) : res unit :=
  if negb (last i 0 =? 90) then Err (EDerConstraintFailed DCMissingTimeZone)
  else if existsb (fun b => b =? 44) i then Err (EDerConstraintFailed DCMissingSeconds)
  else Ok tt.
(** src/asn1_types/generalizedtime.rs:206-249 (DER) *)
Definition gen_der_content (h : header) (i : bytes) : res (bytes * datetime) :=
  let* _ := assert_primitive h in
  if negb (forallb is_visible i) then Err EStringInvalidCharset
  else
    let* _ := gen_der_text i in
    let* t := gen_from_bytes i in Ok ([], t).
(** src/asn1_types/generalizedtime.rs:174, 281-301 *)
Definition gen_codec : codec datetime :=
  mk_codec (is_tag TagGeneralizedTime) gen_ber_content gen_der_content
           (default_try_from (is_tag TagGeneralizedTime) gen_ber_content) (fun a => gen_der_text (any_data a)).

(** ** Writing *)

(** [{:0w}] of an unsigned integer: zeros on the left up to width [w]. *)
Definition pad (w : nat) (n : N) : list N :=
  let s := decimal n in repeat 48 (w - length s) ++ s.

(** src/asn1_types/utctime.rs:242-250 *)
Definition utc_text (t : datetime) : list N :=
  pad 2 (dt_year t) ++ pad 2 (dt_month t) ++ pad 2 (dt_day t) ++ pad 2 (dt_hour t) ++ pad 2 (dt_minute t)
  ++ pad 2 (dt_second t) ++ [90].
(** src/asn1_types/utctime.rs:230-257: length and count are 13 whatever is written; the time zone is not
    looked at. *)
Definition tober_utc (t : datetime) : tober :=
  mk_tober (EncPrimitive TagUtcTime) Universal false TagUtcTime (Definite 13) (Ok (utc_text t, 13)).

(** src/asn1_types/generalizedtime.rs:326-329; src/datetime.rs:90-93 *)
Definition fraction_text (ms : option N) : list N :=
  match ms with None => [] | Some v => 46 :: decimal v end.
(** src/asn1_types/generalizedtime.rs:331-341; [Display for ASN1DateTime], src/datetime.rs:88-100, is the
    same text. *)
Definition gen_text (t : datetime) : list N :=
  pad 4 (dt_year t) ++ pad 2 (dt_month t) ++ pad 2 (dt_day t) ++ pad 2 (dt_hour t) ++ pad 2 (dt_minute t)
  ++ pad 2 (dt_second t) ++ fraction_text (dt_millisecond t) ++ [90].
(** src/asn1_types/generalizedtime.rs:307-351 *)
Definition tober_gen (t : datetime) : tober :=
  mk_tober (EncPrimitive TagGeneralizedTime) Universal false TagGeneralizedTime
           (Definite (15 + match dt_millisecond t with None => 0 | Some v => 1 + blen (decimal v) end))
           (Ok (gen_text t, 15 + blen (fraction_text (dt_millisecond t)))).

(** ** Display *)

(** [{:0w}] of a signed integer: the sign counts for the width. *)
Definition pad_signed (w : nat) (z : Z) : list N :=
  if (z <? 0)%Z then 45 :: pad (w - 1) (Z.to_N (- z)) else pad w (Z.to_N z).

(** [{:04}-{:02}-{:02} {:02}:{:02}:{:02}] *)
Definition date_time_text (t : datetime) : list N :=
  pad 4 (dt_year t) ++ [45] ++ pad 2 (dt_month t) ++ [45] ++ pad 2 (dt_day t) ++ [32] ++ pad 2 (dt_hour t) ++ [58]
  ++ pad 2 (dt_minute t) ++ [58] ++ pad 2 (dt_second t).
(** The sign and digits of an offset; [-hh] overflows for the least [i8]. *)
Definition offset_text (hh mm : Z) : res (list N) :=
  if (0 <? hh)%Z then Ok (43 :: pad_signed 2 hh ++ pad_signed 2 mm)
  else if (hh =? -128)%Z then Panic
  else Ok (45 :: pad_signed 2 (- hh) ++ pad_signed 2 mm).

(** src/asn1_types/utctime.rs:193-212 *)
Definition utc_display (t : datetime) : res (list N) :=
  match dt_tz t with
  | TzZ | TzUndefined => Ok (date_time_text t ++ [90])
  | TzOffset hh mm => let* o := offset_text hh mm in Ok (date_time_text t ++ o)
  end.
(** src/asn1_types/generalizedtime.rs:251-279 *)
Definition gen_display (t : datetime) : res (list N) :=
  let text := date_time_text t ++ fraction_text (dt_millisecond t) in
  match dt_tz t with
  | TzUndefined => Ok text
  | TzZ => Ok (text ++ [90])
  | TzOffset hh mm => let* o := offset_text hh mm in Ok (text ++ o)
  end.

(** ** Feature [datetime]

    The [time] crate (0.3) is modelled from its documentation: [Month::try_from], [Date::from_calendar_date]
    (years -9999 to 9999), [Time::from_hms_milli], [UtcOffset::from_hms] (hours up to 25, minutes up to 59, the
    minutes taking the sign of the hours) and [unix_timestamp]. *)
Record offset_datetime := mk_odt {
  od_year : Z; od_month : N; od_day : N; od_hour : N; od_minute : N; od_second : N; od_millisecond : N;
  od_offset : Z (* seconds east of UTC *)
}.

Definition leap_year (y : Z) : bool := ((y mod 4 =? 0) && (negb (y mod 100 =? 0) || (y mod 400 =? 0)))%Z.
Definition days_in_month (y : Z) (m : N) : N :=
  if m =? 2 then if leap_year y then 29 else 28
  else if (m =? 4) || (m =? 6) || (m =? 9) || (m =? 11) then 30 else 31.
Definition calendar_date (y : Z) (m d : N) : bool :=
  ((-9999 <=? y) && (y <=? 9999))%Z && (1 <=? m) && (m <=? 12) && (1 <=? d) && (d <=? days_in_month y m).

(** [year as i32] of a [u32]. *)
Definition as_i32 (n : N) : Z := if n <? 2 ^ 31 then Z.of_N n else (Z.of_N n - 2 ^ 32)%Z.

Definition utc_offset (h m : Z) : res Z :=
  (if (Z.abs h <=? 25) && (Z.abs m <=? 59)
   then if h =? 0 then Ok (m * 60) else Ok (h * 3600 + Z.sgn h * Z.abs m * 60)
   else Err EInvalidDateTime)%Z.

(** src/datetime.rs:57-85 ([to_datetime]). *)
Definition to_datetime (t : datetime) : res offset_datetime :=
  let y := as_i32 (dt_year t) in
  let ms := match dt_millisecond t with Some v => v | None => 0 end in
  if negb (calendar_date y (dt_month t) (dt_day t)) then Err EInvalidDateTime
  else if negb ((dt_hour t <=? 23) && (dt_minute t <=? 59) && (dt_second t <=? 59) && (ms <=? 999)) then Err EInvalidDateTime
  else
    let* off := match dt_tz t with TzOffset h m => utc_offset h m | _ => Ok 0%Z end in
    Ok (mk_odt y (dt_month t) (dt_day t) (dt_hour t) (dt_minute t) (dt_second t) ms off).

(** Days from 1970-01-01 in the proleptic Gregorian calendar. *)
Definition days_before_year (y : Z) : Z :=
  (let p := y - 1 in 365 * p + p / 4 - p / 100 + p / 400 - 719162)%Z.
Definition days_before_month (y : Z) (m : N) : Z :=
  (nth (N.to_nat m) [0; 0; 31; 59; 90; 120; 151; 181; 212; 243; 273; 304; 334] 0
   + (if (2 <? Z.of_N m) && leap_year y then 1 else 0))%Z.
Definition unix_timestamp (t : offset_datetime) : Z :=
  ((days_before_year (od_year t) + days_before_month (od_year t) (od_month t) + Z.of_N (od_day t) - 1) * 86400
   + Z.of_N (od_hour t) * 3600 + Z.of_N (od_minute t) * 60 + Z.of_N (od_second t) - od_offset t)%Z.

(** src/asn1_types/utctime.rs:98-104 and src/asn1_types/generalizedtime.rs:166-171 ([utc_datetime]),
    src/asn1_types/utctime.rs:127-130 ([timestamp]). *)
Definition utc_timestamp (t : datetime) : res Z :=
  let* d := to_datetime t in Ok (unix_timestamp d).

(** src/asn1_types/utctime.rs:106-122 ([utc_adjusted_datetime]). *)
Definition utc_adjusted_datetime (t : datetime) : res offset_datetime :=
  let* d := to_datetime t in
  let year := (if 50 <=? od_year d then od_year d + 1900 else od_year d + 2000)%Z in
  if calendar_date year (od_month d) (od_day d) then
    Ok (mk_odt year (od_month d) (od_day d) (od_hour d) (od_minute d) (od_second d) (od_millisecond d) (od_offset d))
  else Err EInvalidValue.
