(** Specification of date and time attributes, without the model's functions: the calendar in closed form. *)
From Verif Require Import Base AttrsModel TimeModel.
Open Scope N_scope.

(** The leap years before year [y]. *)
Definition leaps_before (y : N) : N := (y - 1) / 4 - (y - 1) / 100 + (y - 1) / 400.
(** The days of the months before month [m] of a year with no leap day. *)
Definition days_before_month (m : N) : N :=
  nth (N.to_nat m) [0; 0; 31; 59; 90; 120; 151; 181; 212; 243; 273; 304; 334] 365.
(** One in a leap year, zero in another. *)
Definition leap_day (y : N) : N := leaps_before (y + 1) - leaps_before y.
(** The days from 1970-01-01 to the date. *)
Definition day_number (d : date) : N :=
  365 * (d_year d - 1970) + (leaps_before (d_year d) - leaps_before 1970) +
  days_before_month (d_month d) + (if 2 <? d_month d then leap_day (d_year d) else 0) + (d_day d - 1).
Definition days_in_month (y m : N) : N :=
  if m =? 2 then 28 + leap_day y
  else if (m =? 4) || (m =? 6) || (m =? 9) || (m =? 11) then 30 else 31.
Definition is_date (d : date) : Prop :=
  1970 <= d_year d /\ 1 <= d_month d <= 12 /\ 1 <= d_day d <= days_in_month (d_year d) (d_month d).
Definition is_time (t : time) : Prop := t_hour t < 24 /\ t_minute t < 60 /\ t_second t < 60 /\ t_zone t = "+0000"%string.

(** In UTC, the clock shows this date and time [seconds] after the start of 1970. *)
Definition clock (seconds : N) (d : date) (t : time) : Prop :=
  is_date d /\ is_time t /\
  seconds = day_number d * 86400 + t_hour t * 3600 + t_minute t * 60 + t_second t.

(** Digits. *)
Definition dd (n : N) : string :=
  String (ascii_of_N (48 + n / 10)) (String (ascii_of_N (48 + n mod 10)) EmptyString).
Definition dddd (n : N) : string :=
  String (ascii_of_N (48 + n / 1000)) (String (ascii_of_N (48 + n / 100 mod 10))
    (String (ascii_of_N (48 + n / 10 mod 10)) (String (ascii_of_N (48 + n mod 10)) EmptyString))).
(** "2024-12-22" *)
Definition iso_date (d : date) : string := (dddd (d_year d) ++ "-" ++ dd (d_month d) ++ "-" ++ dd (d_day d))%string.
(** "13:08:09+0000" *)
Definition iso_time (t : time) : string :=
  (dd (t_hour t) ++ ":" ++ dd (t_minute t) ++ ":" ++ dd (t_second t) ++ t_zone t)%string.
Definition iso_year (d : date) : string := dec (N.to_nat (d_year d)).

(** The eight attributes, for a date and time of the document and of the conversion. *)
Definition time_attr (dd : date) (dt : time) (ld : date) (lt : time) (k v : string) : Prop :=
  In (k, v)
    [("docyear", iso_year dd); ("docdate", iso_date dd); ("doctime", iso_time dt);
     ("docdatetime", (iso_date dd ++ " " ++ iso_time dt)%string);
     ("localyear", iso_year ld); ("localdate", iso_date ld); ("localtime", iso_time lt);
     ("localdatetime", (iso_date ld ++ " " ++ iso_time lt)%string)]%string.
Definition time_names : list string :=
  ["docyear"; "docdate"; "doctime"; "docdatetime"; "localyear"; "localdate"; "localtime"; "localdatetime"]%string.

(** The second the document's date comes from, and that of the conversion. *)
Definition document_second (now : N) (mtime fixed : option N) : N :=
  match fixed, mtime with Some r, _ => r | None, Some t => t | None, None => now end.
Definition local_second (now : N) (fixed : option N) : N := match fixed with Some r => r | None => now end.

(** What the settings say about an attribute, if a date or a time can be read from it. *)
Definition given_date (J : strptime) (m : meta) : option date :=
  match get m "docdate" with
  | Some (AStr s) => read_date J s | Some (ABool true) => read_date J "" | _ => None end.
Definition given_time (J : strptime) (m : meta) : option time :=
  match get m "doctime" with
  | Some (AStr s) => read_time J s | Some (ABool true) => read_time J "" | _ => None end.

(** The last second of the time stamps that can be written. *)
Definition last_second : N := 253402207200.

(** A given date or time comes before that of the clock. *)
Definition chosen {A} (given : option A) (x : A) : A := match given with Some y => y | None => x end.
