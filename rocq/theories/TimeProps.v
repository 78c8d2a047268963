(** Property C68: the date and time attributes. *)
From Verif Require Import Base AttrsModel AttrsSpec AttrsProofs TimeModel TimeSpec TimeProofs.
Open Scope N_scope.

(** For the examples: a reader of dates and times that knows one of each. *)
Definition ex_strptime : strptime :=
  {| read_date := fun s => if String.eqb s "0800-12-25" then Some {| d_year := 800; d_month := 12; d_day := 25 |} else None;
     read_time := fun s => if String.eqb s "10:00:00-0700"
                           then Some {| t_hour := 10; t_minute := 0; t_second := 0; t_zone := "-0700" |} else None |}.
Definition ex_job (l : amap job_attr) : meta :=
  from_settings {| js_doctype := None; js_safe := Unsafe; js_job := l; js_embedded := false |}.
(** what the document reads, in order *)
Definition ex_reads (m : outcome meta) : list (option attr_value) :=
  match m with Ret m => map (get m) time_names | Panic => [] end.

(** The eight attributes always have one value each, whatever the document assigns: the date and time that
    the clock showed at the fixed second if there is one, or else when the input was last changed, or else
    now; for the document's own date and time, what the job's settings give comes first. *)
Theorem C68_attributes :
  forall J now mtime fixed m,
    document_second now mtime fixed <= last_second -> local_second now fixed <= last_second ->
    exists d t d' t' m',
      clock (document_second now mtime fixed) d t /\ clock (local_second now fixed) d' t' /\
      provide_timestamps J now mtime fixed m = Ret m' /\
      forall ops m'' k v, run m' ops = Ret m'' ->
        time_attr (chosen (given_date J m) d) (chosen (given_time J m) t) d' t' k v -> get m'' k = Some (AStr v).
Proof.
  intros J now mtime fixed m A B.
  destruct (to_zoned_ok _ A) as (d & t & E & C). destruct (to_zoned_ok _ B) as (d' & t' & E' & C').
  destruct (provide_ok J now mtime fixed m _ _ d' t' (from_date J m _ d t E) (from_time J m _ d t E) E') as (m' & P & _ & G & _).
  exists d, t, d', t', m'. repeat (split; [assumption|]). intros ops m'' k v R T.
  apply (readonly_read m' ops m'' k (AStr v)); [|exact (G k v T)|exact R].
  unfold free, time_names. unfold time_attr in T. cbn [In] in T |- *.
  decompose [or] T; try contradiction; match goal with H : (_, _) = (k, v) |- _ => injection H as <- _ end; auto 10.
Qed.
Print Assumptions C68_attributes.
(** parser/src/tasks/time.rs:65-79 (the first of its tests) *)
Example C68_first_test :
  ex_reads (provide_timestamps ex_strptime 1734960586 (Some 1734872889) None (ex_job [])) =
  map (fun s => Some (AStr s)) ["2024"; "2024-12-22"; "13:08:09+0000"; "2024-12-22 13:08:09+0000";
                                "2024"; "2024-12-23"; "13:29:46+0000"; "2024-12-23 13:29:46+0000"]%string.
Proof. vm_compute. reflexivity. Qed.
Example C68_leap_days :
  map (fun s => match to_zoned s with Ret (d, t) => date_text d | Panic => ""%string end)
    [0; 951782400; 951868800; 4107456000; 4107542400; 253402207200] =
  ["1970-01-01"; "2000-02-29"; "2000-03-01"; "2100-02-28"; "2100-03-01"; "9999-12-30"]%string.
Proof. vm_compute. reflexivity. Qed.
Example C68_given :
  ex_reads (provide_timestamps ex_strptime 1734960586 None None
    (ex_job [("docdate", readonly (AStr "0800-12-25")); ("doctime", modifiable (AStr "10:00:00-0700")); ("localdate", readonly (AStr "x"))]%string)) =
  map (fun s => Some (AStr s)) ["800"; "0800-12-25"; "10:00:00-0700"; "0800-12-25 10:00:00-0700";
                                "2024"; "2024-12-23"; "13:29:46+0000"; "2024-12-23 13:29:46+0000"]%string.
Proof. vm_compute. reflexivity. Qed.
Example C68_document_cannot_change : exists m m',
  provide_timestamps ex_strptime 1734960586 None (Some 86399) (ex_job []) = Ret m /\
  run m [OHeader "docdate" (AStr "1999-01-01"); OBody "localtime" (ABool false)] = Ret m' /\
  get m' "docdate" = Some (AStr "1970-01-01") /\ get m' "localtime" = Some (AStr "23:59:59+0000").
Proof. eexists _, _. repeat split; vm_compute; reflexivity. Qed.

(** The clock shows one date and one time. *)
Theorem C68_one_clock : forall s d t d' t', clock s d t -> clock s d' t' -> d = d' /\ t = t'.
Proof. exact clock_one. Qed.
Print Assumptions C68_one_clock.
Example C68_clock_case : clock 1734872889 {| d_year := 2024; d_month := 12; d_day := 22 |}
                                          {| t_hour := 13; t_minute := 8; t_second := 9; t_zone := "+0000" |}.
Proof. unfold clock, is_date, is_time. vm_compute. intuition discriminate. Qed.

(** Texts of dates with times sort as the times do, so a later conversion has a later text. *)
Theorem C68_texts_sort :
  forall s s' d t d' t', clock s d t -> clock s' d' t' -> s < s' -> s' <= last_second ->
    String.compare (iso_date d ++ " " ++ iso_time t) (iso_date d' ++ " " ++ iso_time t') = Lt.
Proof. exact text_before. Qed.
Print Assumptions C68_texts_sort.

(** With a fixed second nothing depends on the clock or on the input's file. *)
Theorem C68_reproducible :
  forall J now mtime now' mtime' fixed m,
    provide_timestamps J now mtime (Some fixed) m = provide_timestamps J now' mtime' (Some fixed) m.
Proof. reflexivity. Qed.
Print Assumptions C68_reproducible.
Example C68_reproducible_case :
  ex_reads (provide_timestamps ex_strptime 1734960586 (Some 1734872889) (Some 1262304000) (ex_job [])) =
  map (fun s => Some (AStr s)) ["2010"; "2010-01-01"; "00:00:00+0000"; "2010-01-01 00:00:00+0000";
                                "2010"; "2010-01-01"; "00:00:00+0000"; "2010-01-01 00:00:00+0000"]%string.
Proof. vm_compute. reflexivity. Qed.

(** No other attribute changes. *)
Theorem C68_nothing_else :
  forall J now mtime fixed m m' k,
    provide_timestamps J now mtime fixed m = Ret m' -> ~ In k time_names -> get m' k = get m k.
Proof. intros J now mtime fixed m m' k E N. exact (proj1 (provide_inv _ _ _ _ _ _ E) k N). Qed.
Print Assumptions C68_nothing_else.

(** The year has the four digits of the date, from year 1000 on. *)
Theorem C68_year_of_date :
  forall d, 1000 <= d_year d -> d_year d < 10000 -> exists r, iso_date d = (iso_year d ++ "-" ++ r)%string.
Proof. intros d A B. eexists. unfold iso_date, iso_year. rewrite (year_digits _ A B). reflexivity. Qed.
Print Assumptions C68_year_of_date.
(** A given date in an earlier year has a year that its text does not start with. *)
Theorem C68_early_year_refuted :
  exists J m m', provide_timestamps J 1734960586 None None m = Ret m' /\
    get m' "docdate" = Some (AStr "0800-12-25") /\ get m' "docyear" = Some (AStr "800").
Proof.
  exists ex_strptime, (ex_job [("docdate", readonly (AStr "0800-12-25"))]%string). eexists.
  repeat split; vm_compute; reflexivity.
Qed.
Print Assumptions C68_early_year_refuted.

(** The API does not always return: a second beyond the end of year 9999 panics, as do milliseconds. *)
Theorem C68_late_second_panics :
  forall J now mtime fixed m, last_second < local_second now fixed -> provide_timestamps J now mtime fixed m = Panic.
Proof.
  intros J now mtime fixed m L. destruct (provide_timestamps J now mtime fixed m) as [m'|] eqn:E; [|reflexivity].
  destruct (provide_inv _ _ _ _ _ _ E) as [_ H]. lia.
Qed.
Print Assumptions C68_late_second_panics.
Example C68_milliseconds : provide_timestamps ex_strptime 1734960586000 None None (ex_job []) = Panic.
Proof. vm_compute. reflexivity. Qed.
(** The command line panics on a file that was last changed before 1970, and on no other while time stamps can be written. *)
Theorem C68_command_line :
  forall J now t m, now <= last_second -> (t <= Z.of_N last_second)%Z ->
    (cli_timestamps J now (Some t) m = Panic <-> (t < 0)%Z).
Proof.
  intros J now t m A B. unfold cli_timestamps, cli_mtime. destruct (Z.ltb_spec t 0) as [L|L]; cbn [obind].
  - split; auto.
  - split; [|lia]. intro E. exfalso.
    destruct (C68_attributes J now (Some (Z.to_N t)) None m) as (d & t' & d' & t'' & m' & _ & _ & P & _);
      [cbn [document_second]; lia|exact A|]. rewrite P in E. discriminate.
Qed.
Print Assumptions C68_command_line.
Example C68_old_file : cli_timestamps ex_strptime 1734960586 (Some (-1)%Z) (ex_job []) = Panic.
Proof. vm_compute. reflexivity. Qed.
