(** Specification of UTCTime and GeneralizedTime (X.680 46 and 47, X.690 11.7 and 11.8): how times are written,
    and the instants they denote. *)
From Verif Require Import Base SHeader MTime.

(** [n] written with exactly [w] decimal digits. *)
Definition fixed (w : nat) (n : N) (s : list N) : Prop :=
  exists ds, s = map (fun d => 48 + d) ds /\ Forall (fun d => d < 10) ds /\ length ds = w /\ n = value_be 10 ds.

(** Local time, "Z", "+hhmm" and "-hhmm". *)
Inductive zone := Local | Utc | East (h m : N) | West (h m : N).
Definition signed_text (c h m : N) (s : list N) : Prop :=
  exists a b, fixed 2 h a /\ fixed 2 m b /\ s = c :: a ++ b.
Definition zone_text (z : zone) (s : list N) : Prop :=
  match z with
  | Local => s = []
  | Utc => s = [90]
  | East h m => signed_text 43 h m s
  | West h m => signed_text 45 h m s
  end.

(** The parts of a written time: the seconds may be left out; the digits of the fraction of a second are kept. *)
Record written := mk_written {
  w_year : N; w_month : N; w_day : N; w_hour : N; w_minute : N;
  w_second : option N; w_fraction : option (list N); w_zone : zone
}.

Definition second_text (x : option N) (s : list N) : Prop :=
  match x with None => s = [] | Some n => fixed 2 n s end.
(** A point or a comma, then digits. *)
Definition frac_text (x : option (list N)) (s : list N) : Prop :=
  match x with
  | None => s = []
  | Some ds => Forall (fun d => d < 10) ds /\ exists c, (c = 46 \/ c = 44) /\ s = c :: map (fun d => 48 + d) ds
  end.

(** A time written with [n] digits for the year. *)
Definition time_text (n : nat) (w : written) (s : list N) : Prop :=
  exists y mo d h mi sec fr z,
    fixed n (w_year w) y /\ fixed 2 (w_month w) mo /\ fixed 2 (w_day w) d /\ fixed 2 (w_hour w) h
    /\ fixed 2 (w_minute w) mi /\ second_text (w_second w) sec /\ frac_text (w_fraction w) fr
    /\ zone_text (w_zone w) z
    /\ s = y ++ mo ++ d ++ h ++ mi ++ sec ++ fr ++ z.
(** UTCTime has two digits for the year, no fraction, and always a zone. *)
Definition utc_text_of (w : written) (s : list N) : Prop :=
  time_text 2 w s /\ w_fraction w = None /\ w_zone w <> Local.
Definition gen_text_of (w : written) (s : list N) : Prop := time_text 4 w s.

Definition seconds (w : written) : N := match w_second w with None => 0 | Some n => n end.
(** What is checked of the fields when a time is read; a month 0 or a day 0 passes. *)
Definition in_range (w : written) : Prop :=
  w_month w <= 12 /\ w_day w <= 31 /\ w_hour w <= 23 /\ w_minute w <= 59 /\ seconds w <= 59.

(** Thousandths of a second in a fraction. *)
Definition thousandths (ds : list N) : N := value_be 10 ds * 1000 / 10 ^ N.of_nat (length ds).

(** ** The values of the crate *)

(** The minutes of an offset carry no sign of their own. *)
Definition zone_value (z : zone) : tz :=
  match z with
  | Local => TzUndefined
  | Utc => TzZ
  | East h m => TzOffset (Z.of_N h) (Z.of_N m)
  | West h m => TzOffset (- Z.of_N h) (Z.of_N m)
  end.
(** The milliseconds read from a fraction: with four digits, which are accepted without a zone, the digits are
    taken as they stand. *)
Definition read_fraction (ds : list N) : N :=
  match length ds with 1%nat => value_be 10 ds * 100 | 2%nat => value_be 10 ds * 10 | _ => value_be 10 ds end.
Definition fields (w : written) : datetime :=
  mk_datetime (w_year w) (w_month w) (w_day w) (w_hour w) (w_minute w) (seconds w)
    (match w_fraction w with None => None | Some ds => Some (read_fraction ds) end) (zone_value (w_zone w)).

(** The texts that are read: without seconds the zone must be "Z"; the fraction has at most three digits, or
    one to four in local time. *)
Definition utc_supported (w : written) : Prop := w_second w = None -> w_zone w = Utc.
Definition gen_supported (w : written) : Prop :=
  (w_second w = None -> w_zone w = Utc /\ w_fraction w = None)
  /\ match w_fraction w with
     | None => True
     | Some ds => (w_zone w = Local -> (1 <= length ds <= 4)%nat) /\ (w_zone w <> Local -> (length ds <= 3)%nat)
     end.

(** ** Canonical forms *)

(** X.690 11.8: seconds present, zone "Z". *)
Definition utc_canonical (w : written) (s : list N) : Prop :=
  utc_text_of w s /\ w_second w <> None /\ w_zone w = Utc.
(** X.690 11.7: seconds present, zone "Z", a point and not a comma, no trailing zero in the fraction and no
    empty fraction. *)
Definition gen_canonical (w : written) (s : list N) : Prop :=
  gen_text_of w s /\ w_second w <> None /\ w_zone w = Utc /\ ~ In 44 s
  /\ match w_fraction w with None => True | Some ds => ds <> [] /\ last ds 0 <> 0 end.

(** ** Calendar *)

Definition month_length (y : Z) (m : N) : N :=
  nth (N.to_nat m)
    [0; 31; if ((y mod 4 =? 0) && negb (y mod 100 =? 0) || (y mod 400 =? 0))%Z then 29 else 28;
     31; 30; 31; 30; 31; 31; 30; 31; 30; 31] 0.
Definition valid_date (y : Z) (m d : N) : Prop := 1 <= m <= 12 /\ 1 <= d <= month_length y m.

(** [D] numbers the days of the Gregorian calendar, 1970-01-01 being day 0. *)
Definition day_count (D : Z -> N -> N -> Z) : Prop :=
  D 1970%Z 1 1 = 0%Z
  /\ (forall y m d, valid_date y m d -> d < month_length y m -> D y m (d + 1) = (D y m d + 1)%Z)
  /\ (forall y m, 1 <= m < 12 -> D y (m + 1) 1 = (D y m (month_length y m) + 1)%Z)
  /\ (forall y, D (y + 1)%Z 1 1 = (D y 12%N 31%N + 1)%Z).

(** Minutes by which the local time is ahead. *)
Definition zone_minutes (z : zone) : Z :=
  match z with
  | Local | Utc => 0
  | East h m => Z.of_N h * 60 + Z.of_N m
  | West h m => - (Z.of_N h * 60 + Z.of_N m)
  end%Z.

(** Milliseconds from 1970-01-01T00:00:00Z; [y] is the full year. *)
Definition instant (D : Z -> N -> N -> Z) (y : Z) (month day hour minute second ms : N) (offset : Z) : Z :=
  ((((D y month day * 24 + Z.of_N hour) * 60 + Z.of_N minute - offset) * 60 + Z.of_N second) * 1000 + Z.of_N ms)%Z.
Definition written_instant (D : Z -> N -> N -> Z) (y : Z) (w : written) : Z :=
  instant D y (w_month w) (w_day w) (w_hour w) (w_minute w) (seconds w)
    (match w_fraction w with None => 0 | Some ds => thousandths ds end) (zone_minutes (w_zone w)).

(** The year of a UTCTime (RFC 5280 4.1.2.5.1). *)
Definition century (y : N) : Z := if y <? 50 then Z.of_N (2000 + y) else Z.of_N (1900 + y).

(** The instant of a value; the minutes of an offset go in the direction of the hours. *)
Definition value_minutes (z : tz) : Z :=
  match z with
  | TzUndefined | TzZ => 0
  | TzOffset h m => if h <? 0 then h * 60 - m else h * 60 + m
  end%Z.
Definition value_instant (D : Z -> N -> N -> Z) (y : Z) (t : datetime) : Z :=
  instant D y (dt_month t) (dt_day t) (dt_hour t) (dt_minute t) (dt_second t)
    (match dt_millisecond t with None => 0 | Some v => v end) (value_minutes (dt_tz t)).

(** "yyyy-mm-dd hh:mm:ss", then the fraction and the zone. *)
Definition display_text (w : written) (s : list N) : Prop :=
  exists y mo d h mi sec fr z,
    fixed 4 (w_year w) y /\ fixed 2 (w_month w) mo /\ fixed 2 (w_day w) d /\ fixed 2 (w_hour w) h
    /\ fixed 2 (w_minute w) mi /\ fixed 2 (seconds w) sec /\ frac_text (w_fraction w) fr
    /\ zone_text (w_zone w) z
    /\ s = y ++ [45] ++ mo ++ [45] ++ d ++ [32] ++ h ++ [58] ++ mi ++ [58] ++ sec ++ fr ++ z.

(** ** The texts of values *)

Definition value_ranges (t : datetime) : Prop :=
  dt_month t <= 12 /\ dt_day t <= 31 /\ dt_hour t <= 23 /\ dt_minute t <= 59 /\ dt_second t <= 59.
(** The text of a value: [frac] are the digits after the point. *)
Definition written_as (t : datetime) (frac : option (list N)) : written :=
  mk_written (dt_year t) (dt_month t) (dt_day t) (dt_hour t) (dt_minute t) (Some (dt_second t)) frac Utc.
(** The digits printed for milliseconds. *)
Definition shown_fraction (x : option N) (frac : option (list N)) : Prop :=
  match x, frac with
  | None, None => True
  | Some v, Some ds => Forall (fun d => d < 10) ds /\ v = value_be 10 ds /\ (ds = [0] \/ hd 0 ds <> 0)
  | _, _ => False
  end.
(** The milliseconds that survive: those written with one zero or three digits. *)
Definition stable_ms (x : option N) : Prop :=
  match x with None => True | Some v => v = 0 \/ 100 <= v <= 999 end.
