(** Model of parser/src/tasks/time.rs, parser/src/parser.rs:61-68, and where the times come from in
    cli/src/main.rs:40-52, 78-82 and dr-html-wasm/src/lib.rs:18. *)
From Verif Require Import Base AttrsModel.
Open Scope N_scope.

(** The crate [jiff] is not part of the repository. What is modelled of it: the civil date and time of a
    time stamp in UTC in the Gregorian calendar (defined below, by walking over years and months), the
    last time stamp it accepts, and how [strftime] writes the five formats used. Its two [strptime] calls
    are parameters of every function below that uses them. Simplification: years before 0 do not occur
    (a time stamp is a [u64]; a date read from [docdate] is taken not to be negative). *)

(** the year is a leap year of the Gregorian calendar *)
Definition leap (y : N) : bool := ((y mod 4 =? 0) && negb (y mod 100 =? 0)) || (y mod 400 =? 0).
Definition year_length (y : N) : N := if leap y then 366 else 365.
Definition month_lengths (y : N) : list N :=
  [31; if leap y then 29 else 28; 31; 30; 31; 30; 31; 31; 30; 31; 30; 31].

Record date := { d_year : N; d_month : N; d_day : N }.
(** [t_zone] is the text [%z] writes *)
Record time := { t_hour : N; t_minute : N; t_second : N; t_zone : string }.

(** the year of the [n]-th day from the start of year [y], and the day in that year *)
Fixpoint walk_years (fuel : nat) (y n : N) : N * N :=
  match fuel with
  | O => (y, n)
  | S f => if n <? year_length y then (y, n) else walk_years f (y + 1) (n - year_length y)
  end.
Fixpoint walk_months (l : list N) (m n : N) : N * N :=
  match l with
  | [] => (m, n)
  | k :: r => if n <? k then (m, n) else walk_months r (m + 1) (n - k)
  end.
(** the date of the [n]-th day from 1970-01-01 *)
Definition date_of_day (n : N) : date :=
  let (y, k) := walk_years (S (N.to_nat (n / 365))) 1970 n in
  let (m, d) := walk_months (month_lengths y) 1 k in
  {| d_year := y; d_month := m; d_day := d + 1 |}.
Definition time_of_second (k : N) : time :=
  {| t_hour := k / 3600; t_minute := k mod 3600 / 60; t_second := k mod 60; t_zone := "+0000" |}.

(** [jiff::Timestamp::MAX], in seconds *)
Definition LAST_SECOND : N := 253402207200.

(** parser/src/tasks/time.rs:41-45: the two [expect]s; a [u64] that is no [i64] is beyond the last second too *)
Definition to_zoned (seconds : N) : outcome (date * time) :=
  if LAST_SECOND <? seconds then Panic else Ret (date_of_day (seconds / 86400), time_of_second (seconds mod 86400)).

(** [strftime]: digits padded with zeros *)
Definition digit (n : N) : string := String (ascii_of_N (48 + n)) EmptyString.
Definition two (n : N) : string := (digit (n / 10) ++ digit (n mod 10))%string.
Definition four (n : N) : string := (two (n / 100) ++ two (n mod 100))%string.
(** "%Y-%m-%d": time.rs:22, 32 *)
Definition date_text (d : date) : string := (four (d_year d) ++ "-" ++ two (d_month d) ++ "-" ++ two (d_day d))%string.
(** "%H:%M:%S%z": time.rs:23, 33 *)
Definition time_text (t : time) : string :=
  (two (t_hour t) ++ ":" ++ two (t_minute t) ++ ":" ++ two (t_second t) ++ t_zone t)%string.
(** "%Y-%m-%d %H:%M:%S%z": time.rs:34 *)
Definition datetime_text (d : date) (t : time) : string := (date_text d ++ " " ++ time_text t)%string.
(** [year().to_string()]: time.rs:21, 31 *)
Definition year_text (d : date) : string := dec (N.to_nat (d_year d)).

(** what [jiff] reads with "%Y-%m-%d" and, behind "2000-01-01 ", with "%H:%M:%S%z" *)
Record strptime := { read_date : string -> option date; read_time : string -> option time }.

Definition then_ {A B} (x : option A) (f : A -> option B) : option B := match x with Some a => f a | None => None end.
Definition or_else {A} (x : option A) (y : outcome A) : outcome A := match x with Some a => Ret a | None => y end.
Definition obind {A B} (x : outcome A) (f : A -> outcome B) : outcome B := match x with Ret a => f a | Panic => Panic end.

(** core/src/attrs.rs:55-57 *)
Definition str (m : meta) (k : string) : option string := then_ (get m k) av_str.

(** parser/src/tasks/time.rs:47-52; [to_zoned] of a date the crate has read does not fail: the first date
    it could fail for is in the year -9999 *)
Definition date_from_attr_or (J : strptime) (attr : option string) (seconds : N) : outcome date :=
  or_else (then_ attr (read_date J)) (obind (to_zoned seconds) (fun z => Ret (fst z))).
(** parser/src/tasks/time.rs:54-58 *)
Definition time_from_attr_or (J : strptime) (attr : option string) (seconds : N) : outcome time :=
  or_else (then_ attr (read_time J)) (obind (to_zoned seconds) (fun z => Ret (snd z))).

(** parser/src/tasks/attr_refs.rs:103-109, with its [unwrap] *)
Definition put_job_attr (m : meta) (k v : string) : outcome meta :=
  let (m', ok) := AttrsModel.insert_job_attr m k (readonly (AStr v)) in if ok then Ret m' else Panic.
Fixpoint put_all (l : list (string * string)) (m : meta) : outcome meta :=
  match l with [] => Ret m | (k, v) :: r => obind (put_job_attr m k v) (put_all r) end.

Definition or_default {A} (x : option A) (y : A) : A := match x with Some a => a | None => y end.

(** parser/src/tasks/time.rs:9-38, parser/src/parser.rs:61-68 *)
Definition provide_timestamps (J : strptime) (now : N) (input_mtime reproducible : option N) (m : meta) : outcome meta :=
  let doc_ts := or_default reproducible (or_default input_mtime now) in
  let now_ts := or_default reproducible now in
  obind (date_from_attr_or J (str m "docdate") doc_ts) (fun docdate =>
  obind (time_from_attr_or J (str m "doctime") doc_ts) (fun doctime =>
  obind (put_all [("docyear", year_text docdate); ("docdate", date_text docdate); ("doctime", time_text doctime);
                  ("docdatetime", (date_text docdate ++ " " ++ time_text doctime)%string)]%string m) (fun m =>
  obind (to_zoned now_ts) (fun z =>
  put_all [("localyear", year_text (fst z)); ("localdate", date_text (fst z)); ("localtime", time_text (snd z));
           ("localdatetime", datetime_text (fst z) (snd z))]%string m)))).

(** cli/src/main.rs:43-45: the time a file was modified, in seconds from 1970, unwrapped *)
Definition cli_mtime (modified : option Z) : outcome (option N) :=
  match modified with
  | None => Ret None
  | Some t => if (t <? 0)%Z then Panic else Ret (Some (Z.to_N t))
  end.
(** cli/src/main.rs:40-52 and 78-82: [modified] is the time of the input file, [None] for standard input *)
Definition cli_timestamps (J : strptime) (now : N) (modified : option Z) (m : meta) : outcome meta :=
  obind (cli_mtime modified) (fun mtime => provide_timestamps J now mtime None m).
