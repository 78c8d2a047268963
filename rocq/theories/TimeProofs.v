(** Lemmas for TimeProps.v *)
From Coq Require Import ZifyN ZifyNat ZifyBool.
From Verif Require Import Base AttrsModel AttrsSpec AttrsProofs TimeModel TimeSpec.
Open Scope N_scope.

Lemma div_succ a k : k <> 0 -> (a + 1) / k = a / k + (if (a + 1) mod k =? 0 then 1 else 0).
Proof.
  intros K. pose proof (N.div_mod a k K) as A. pose proof (N.mod_lt a k K) as B.
  pose proof (N.div_mod (a + 1) k K) as C. pose proof (N.mod_lt (a + 1) k K) as D.
  destruct (N.eqb_spec ((a + 1) mod k) 0) as [E|E]; nia.
Qed.
Lemma leaps_succ y : 1 <= y -> leaps_before (y + 1) = leaps_before y + (if leap y then 1 else 0).
Proof.
  intros Y. unfold leaps_before, leap. replace (y + 1 - 1) with y by lia.
  set (a := y - 1). replace y with (a + 1) by (unfold a; lia). clearbody a. clear Y.
  rewrite !div_succ by lia.
  assert (L : a / 100 <= a / 4) by (apply N.div_le_compat_l; lia).
  destruct (N.eqb_spec ((a + 1) mod 400) 0) as [E0|E0].
  - apply N.mod_divide in E0; [|lia]. destruct E0 as [q E0].
    replace ((a + 1) mod 100) with 0
      by (symmetry; apply N.mod_divide; [lia|]; exists (4 * q); lia).
    replace ((a + 1) mod 4) with 0
      by (symmetry; apply N.mod_divide; [lia|]; exists (100 * q); lia).
    cbn [N.eqb andb orb negb]. lia.
  - destruct (N.eqb_spec ((a + 1) mod 100) 0) as [E1|E1].
    + apply N.mod_divide in E1; [|lia]. destruct E1 as [q E1].
      replace ((a + 1) mod 4) with 0
        by (symmetry; apply N.mod_divide; [lia|]; exists (25 * q); lia).
      cbn [N.eqb andb orb negb]. lia.
    + destruct (N.eqb_spec ((a + 1) mod 4) 0) as [E4|E4]; cbn [andb orb negb]; lia.
Qed.
Lemma leap_day_01 y : 1 <= y -> leap_day y = if leap y then 1 else 0.
Proof. intros Y. unfold leap_day. rewrite leaps_succ by exact Y. destruct (leap y); lia. Qed.
Lemma leaps_mono y z : 1 <= y -> y <= z -> leaps_before y <= leaps_before z.
Proof.
  intros Y Z. replace z with (y + (z - y)) by lia. generalize (z - y) as k. clear Z z.
  induction k as [|k IH] using N.peano_ind; [rewrite N.add_0_r; lia|].
  replace (y + N.succ k) with (y + k + 1) by lia. rewrite leaps_succ by lia. destruct (leap (y + k)); lia.
Qed.

(** days from 1970 to the start of a year *)
Definition year_start (y : N) : N := 365 * (y - 1970) + (leaps_before y - leaps_before 1970).
Lemma year_start_succ y : 1970 <= y -> year_start (y + 1) = year_start y + year_length y.
Proof.
  intros Y. unfold year_start, year_length. pose proof (leaps_mono 1970 y ltac:(lia) Y).
  rewrite leaps_succ by lia. destruct (leap y); lia.
Qed.

Lemma walk_years_ok fuel : forall y n, 1970 <= y -> n < 365 * N.of_nat fuel ->
  let (z, k) := walk_years fuel y n in 1970 <= z /\ k < year_length z /\ year_start z + k = year_start y + n.
Proof.
  induction fuel as [|fuel IH]; intros y n Y F; cbn [walk_years]; [lia|].
  destruct (N.ltb_spec n (year_length y)) as [L|L]; [auto|].
  assert (G : 365 <= year_length y) by (unfold year_length; destruct (leap y); lia).
  specialize (IH (y + 1) (n - year_length y) ltac:(lia) ltac:(lia)).
  destruct (walk_years fuel (y + 1) (n - year_length y)) as [z k]. destruct IH as (A & B & C).
  split; [exact A|]. split; [exact B|]. rewrite C, year_start_succ by exact Y. lia.
Qed.

Ltac months :=
  repeat match goal with |- context [N.add (Npos ?p) 1] =>
    let v := eval vm_compute in (N.pos p + 1) in change (N.pos p + 1) with v end;
  repeat match goal with |- context [days_before_month (Npos ?p)] =>
    let v := eval vm_compute in (days_before_month (N.pos p)) in change (days_before_month (N.pos p)) with v end.
Lemma walk_months_ok y n : n < year_length y -> 1 <= y ->
  let (m, d) := walk_months (month_lengths y) 1 n in
  1 <= m <= 12 /\ d < days_in_month y m /\
  n = days_before_month m + (if 2 <? m then leap_day y else 0) + d.
Proof.
  intros L Y. unfold year_length in L. rewrite (leap_day_01 y Y). unfold days_in_month. rewrite (leap_day_01 y Y).
  unfold month_lengths. destruct (leap y); cbn [walk_months];
  repeat (match goal with |- context [?a <? ?b] => lazymatch a with 2 => fail | _ => destruct (N.ltb_spec a b) end end;
    [months; cbn -[N.sub N.add]; lia|]); exfalso; lia.
Qed.

Lemma date_of_day_ok n : is_date (date_of_day n) /\ day_number (date_of_day n) = n.
Proof.
  unfold date_of_day.
  pose proof (walk_years_ok (S (N.to_nat (n / 365))) 1970 n ltac:(lia)) as W.
  assert (F : n < 365 * N.of_nat (S (N.to_nat (n / 365)))).
  { rewrite Nat2N.inj_succ, N2Nat.id. pose proof (N.div_mod n 365 ltac:(lia)).
    pose proof (N.mod_lt n 365 ltac:(lia)). lia. }
  specialize (W F). destruct (walk_years (S (N.to_nat (n / 365))) 1970 n) as [y k]. destruct W as (A & B & C).
  pose proof (walk_months_ok y k B ltac:(lia)) as M.
  destruct (walk_months (month_lengths y) 1 k) as [m d]. destruct M as (D & E & G).
  unfold is_date, day_number; cbn [d_year d_month d_day]. split; [lia|].
  unfold year_start in C. replace (1970 - 1970) with 0 in C by lia.
  replace (leaps_before 1970 - leaps_before 1970) with 0 in C by lia. lia.
Qed.

Lemma to_zoned_ok s : s <= last_second -> exists d t, to_zoned s = Ret (d, t) /\ clock s d t.
Proof.
  intros L. unfold to_zoned. change LAST_SECOND with last_second.
  destruct (N.ltb_spec last_second s) as [G|G]; [lia|]. eexists _, _. split; [reflexivity|].
  destruct (date_of_day_ok (s / 86400)) as [A B]. unfold clock. rewrite B. split; [exact A|].
  pose proof (N.div_mod s 86400 ltac:(lia)) as E. pose proof (N.mod_lt s 86400 ltac:(lia)) as F.
  set (k := s mod 86400) in *. clearbody k. unfold is_time, time_of_second; cbn [t_hour t_minute t_second t_zone].
  pose proof (N.div_mod k 3600 ltac:(lia)) as A1. pose proof (N.mod_lt k 3600 ltac:(lia)) as B1.
  pose proof (N.div_mod (k mod 3600) 60 ltac:(lia)) as A2. pose proof (N.mod_lt (k mod 3600) 60 ltac:(lia)) as B2.
  assert (H : k mod 60 = (k mod 3600) mod 60).
  { rewrite A1 at 1. replace (3600 * (k / 3600) + k mod 3600) with (k mod 3600 + (60 * (k / 3600)) * 60) by lia.
    apply N.mod_add. lia. }
  rewrite H. split; [|lia]. split; [|split; [|split]]; try lia; try reflexivity.
Qed.
Lemma to_zoned_late s : last_second < s -> to_zoned s = Panic.
Proof. intros L. unfold to_zoned. change LAST_SECOND with last_second. apply N.ltb_lt in L. rewrite L. reflexivity. Qed.

(** the clock shows one date and time *)
Lemma day_bounds d : is_date d -> year_start (d_year d) <= day_number d < year_start (d_year d + 1).
Proof.
  intros (Y & M & D). unfold is_date, days_in_month in *. rewrite year_start_succ by exact Y.
  unfold day_number. fold (year_start (d_year d)). unfold year_length.
  rewrite (leap_day_01 (d_year d)) in * by lia. revert D.
  assert (C : In (d_month d) [1;2;3;4;5;6;7;8;9;10;11;12]) by (cbn [In]; lia).
  cbn [In] in C. destruct (leap (d_year d));
  decompose [or] C; match goal with H : _ = d_month d |- _ => rewrite <- H; months; cbn -[N.sub N.add N.mul year_start]; lia | H : False |- _ => destruct H end.
Qed.
Lemma year_start_mono y z : 1970 <= y -> y <= z -> year_start y <= year_start z.
Proof. intros Y Z. unfold year_start. pose proof (leaps_mono y z ltac:(lia) Z). pose proof (leaps_mono 1970 y ltac:(lia) Y). lia. Qed.
Lemma month_bounds y m x n z : 1970 <= y -> 1 <= m -> m < n -> n <= 12 -> 1 <= x <= days_in_month y m -> 1 <= z ->
  days_before_month m + (if 2 <? m then leap_day y else 0) + (x - 1) <
  days_before_month n + (if 2 <? n then leap_day y else 0) + (z - 1).
Proof.
  intros Y A B C D E. revert D. unfold days_in_month. rewrite (leap_day_01 y) by lia.
  assert (M : In m [1;2;3;4;5;6;7;8;9;10;11;12]) by (cbn [In]; lia).
  assert (N' : In n [1;2;3;4;5;6;7;8;9;10;11;12]) by (cbn [In]; lia).
  cbn [In] in M, N'. destruct (leap y);
  decompose [or] M; try contradiction; subst m; decompose [or] N'; try contradiction; subst n; try lia; months; cbn -[N.sub N.add]; lia.
Qed.

Definition date_before (d e : date) : Prop :=
  d_year d < d_year e \/ (d_year d = d_year e /\
   (d_month d < d_month e \/ (d_month d = d_month e /\ d_day d < d_day e))).
Lemma day_number_before d e : is_date d -> is_date e -> date_before d e -> day_number d < day_number e.
Proof.
  intros D E B. pose proof (day_bounds d D) as Bd. pose proof (day_bounds e E) as Be.
  destruct D as (D1 & D2 & D3). destruct E as (E1 & E2 & E3).
  destruct B as [B|[B1 [B|[B2 B]]]].
  - pose proof (year_start_mono (d_year d + 1) (d_year e) ltac:(lia) ltac:(lia)). lia.
  - unfold day_number. fold (year_start (d_year d)). fold (year_start (d_year e)). rewrite <- B1.
    pose proof (month_bounds (d_year d) (d_month d) (d_day d) (d_month e) (d_day e) ltac:(lia) ltac:(lia) B ltac:(lia) D3 ltac:(lia)).
    lia.
  - unfold day_number. rewrite B1, B2. lia.
Qed.
Lemma date_total d e : date_before d e \/ d = e \/ date_before e d.
Proof.
  destruct d as [y m x], e as [y' m' x']. unfold date_before; cbn [d_year d_month d_day].
  destruct (N.lt_trichotomy y y') as [H|[H|H]]; [auto| |auto 6]. subst y'.
  destruct (N.lt_trichotomy m m') as [H|[H|H]]; [auto 6| |auto 8]. subst m'.
  destruct (N.lt_trichotomy x x') as [H|[H|H]]; [auto 8| |right; right; right; auto]. subst x'. auto.
Qed.
Lemma clock_before s s' d t d' t' : clock s d t -> clock s' d' t' -> s < s' ->
  date_before d d' \/ (d = d' /\ (t_hour t < t_hour t' \/ (t_hour t = t_hour t' /\
   (t_minute t < t_minute t' \/ (t_minute t = t_minute t' /\ t_second t < t_second t'))))).
Proof.
  intros (D & T & E) (D' & T' & E') L. destruct T as (T1 & T2 & T3 & T4), T' as (U1 & U2 & U3 & U4).
  destruct (date_total d d') as [B|[B|B]]; [auto| |].
  - right. split; [exact B|]. subst d'. lia.
  - exfalso. pose proof (day_number_before _ _ D' D B). lia.
Qed.
Lemma clock_one s d t d' t' : clock s d t -> clock s d' t' -> d = d' /\ t = t'.
Proof.
  intros (D & T & E) (D' & T' & E'). destruct T as (T1 & T2 & T3 & T4), T' as (U1 & U2 & U3 & U4).
  destruct (date_total d d') as [B|[B|B]].
  - exfalso. pose proof (day_number_before _ _ D D' B). lia.
  - split; [exact B|]. subst d'. destruct t as [h m x z], t' as [h' m' x' z']. cbn [t_hour t_minute t_second t_zone] in *.
    assert (h = h') by lia. assert (m = m') by lia. assert (x = x') by lia. congruence.
  - exfalso. pose proof (day_number_before _ _ D' D B). lia.
Qed.

(** texts *)
Lemma two_dd n : two n = dd n. Proof. reflexivity. Qed.
Lemma four_dddd n : four n = dddd n.
Proof.
  unfold four, two, digit, dddd. cbn [append].
  replace (n / 100 / 10) with (n / 1000) by (rewrite N.div_div by lia; reflexivity).
  assert (A : n mod 100 / 10 = n / 10 mod 10).
  { pose proof (N.div_mod n 100 ltac:(lia)) as E. pose proof (N.mod_lt n 100 ltac:(lia)).
    apply (N.mod_unique (n / 10) 10 (n / 100)); [apply N.div_lt_upper_bound; lia|].
    rewrite E at 1. replace (100 * (n / 100) + n mod 100) with (n mod 100 + 10 * (n / 100) * 10) by lia.
    rewrite N.div_add by lia. lia. }
  assert (B : (n mod 100) mod 10 = n mod 10).
  { pose proof (N.div_mod n 100 ltac:(lia)) as E. rewrite E at 2.
    replace (100 * (n / 100) + n mod 100) with (n mod 100 + 10 * (n / 100) * 10) by lia.
    rewrite N.mod_add by lia. reflexivity. }
  rewrite A, B. reflexivity.
Qed.
Lemma date_text_iso d : date_text d = iso_date d.
Proof. unfold date_text, iso_date. rewrite four_dddd, !two_dd. reflexivity. Qed.
Lemma time_text_iso t : time_text t = iso_time t.
Proof. unfold time_text, iso_time. rewrite !two_dd. reflexivity. Qed.

(** attributes *)
Definition free (k : string) : Prop := In k time_names.
Lemma free_legal k v : free k -> legal_value k (AStr v) = true.
Proof. intros F. unfold free, time_names in F. cbn [In] in F. decompose [or] F; try contradiction; subst k; reflexivity. Qed.
Lemma put_job_ok m k v : free k -> exists m', put_job_attr m k v = Ret m' /\ m_job m' = aput (m_job m) k (readonly (AStr v)) /\
  m_doc m' = m_doc m /\ m_header m' = m_header m /\ m_default m' = m_default m /\ m_doctype m' = m_doctype m /\
  m_safe m' = m_safe m /\ m_embedded m' = m_embedded m /\ m_authors m' = m_authors m.
Proof.
  intros F. unfold put_job_attr, insert_job_attr, job_insert, validate_attr. cbn [ja_value readonly].
  rewrite (free_legal k v F).
  replace (String.eqb k "showtitle") with false
    by (unfold free, time_names in F; cbn [In] in F; decompose [or] F; try contradiction; subst k; reflexivity).
  replace (String.eqb k "notitle") with false
    by (unfold free, time_names in F; cbn [In] in F; decompose [or] F; try contradiction; subst k; reflexivity).
  eexists. split; [reflexivity|]. cbn. repeat split.
Qed.
(** metas that differ in job attributes at most *)
Definition rest_eq (m m' : meta) : Prop :=
  m_doc m' = m_doc m /\ m_header m' = m_header m /\ m_default m' = m_default m /\ m_doctype m' = m_doctype m /\
  m_safe m' = m_safe m /\ m_embedded m' = m_embedded m /\ m_authors m' = m_authors m.
Lemma put_all_ok l : forall m, Forall (fun e => free (fst e)) l -> NoDup (map fst l) ->
  exists m', put_all l m = Ret m' /\ rest_eq m m' /\
    (forall k v, In (k, v) l -> aget (m_job m') k = Some (readonly (AStr v))) /\
    (forall k, ~ In k (map fst l) -> aget (m_job m') k = aget (m_job m) k).
Proof.
  induction l as [|[k v] l IH]; intros m F N; cbn [put_all].
  - exists m. split; [reflexivity|]. split; [repeat split|]. split; [intros ? ? []|auto].
  - inversion F as [|? ? F1 F2]; subst. cbn [map fst] in N. inversion N as [|? ? N1 N2]; subst.
    destruct (put_job_ok m k v F1) as (m1 & E & J & R). rewrite E. cbn [obind].
    destruct (IH m1 F2 N2) as (m' & E' & R' & G & H). exists m'. split; [exact E'|]. split.
    { unfold rest_eq in *. decompose [and] R. decompose [and] R'. repeat split; congruence. }
    split.
    + intros k' v' [I|I]; [|apply G; exact I]. injection I as <- <-. rewrite (H k N1), J. apply aget_aput_same.
    + intros k' I. cbn [map fst In] in I. rewrite H by tauto. rewrite J. apply aget_aput_other. intro C. subst. tauto.
Qed.

Lemma not_derived k : free k -> ~ spec_derived k.
Proof. intros F C. unfold free, time_names in F. unfold spec_derived in C. cbn [In] in F, C.
  decompose [or] F; try contradiction; subst k; decompose [or] C; try contradiction; discriminate. Qed.
Lemma readonly_read m ops m' k v : free k -> aget (m_job m) k = Some (readonly v) -> run m ops = Ret m' -> get m' k = Some v.
Proof.
  intros F A R. rewrite (readonly_wins m' k (readonly v)); [reflexivity|apply not_derived; exact F| |reflexivity].
  rewrite (run_job _ _ _ R). exact A.
Qed.

Lemma str_date J m : then_ (str m "docdate") (read_date J) = given_date J m.
Proof. unfold str, given_date. destruct (get m "docdate") as [[s|[]]|]; reflexivity. Qed.
Lemma str_time J m : then_ (str m "doctime") (read_time J) = given_time J m.
Proof. unfold str, given_time. destruct (get m "doctime") as [[s|[]]|]; reflexivity. Qed.

Definition doc_pairs (d : date) (t : time) : list (string * string) :=
  [("docyear", year_text d); ("docdate", date_text d); ("doctime", time_text t);
   ("docdatetime", (date_text d ++ " " ++ time_text t)%string)]%string.
Definition local_pairs (d : date) (t : time) : list (string * string) :=
  [("localyear", year_text d); ("localdate", date_text d); ("localtime", time_text t);
   ("localdatetime", datetime_text d t)]%string.
Lemma provide_ok J now mtime fixed m dd dt ld lt :
  date_from_attr_or J (str m "docdate") (document_second now mtime fixed) = Ret dd ->
  time_from_attr_or J (str m "doctime") (document_second now mtime fixed) = Ret dt ->
  to_zoned (local_second now fixed) = Ret (ld, lt) ->
  exists m', provide_timestamps J now mtime fixed m = Ret m' /\ rest_eq m m' /\
    (forall k v, time_attr dd dt ld lt k v -> aget (m_job m') k = Some (readonly (AStr v))) /\
    (forall k, ~ In k time_names -> aget (m_job m') k = aget (m_job m) k).
Proof.
  intros A B C. unfold provide_timestamps.
  replace (or_default fixed (or_default mtime now)) with (document_second now mtime fixed) by (destruct fixed, mtime; reflexivity).
  replace (or_default fixed now) with (local_second now fixed) by (destruct fixed; reflexivity).
  rewrite A; cbn [obind]. rewrite B; cbn [obind]. fold (doc_pairs dd dt).
  assert (F : forall k, In k ["docyear"; "docdate"; "doctime"; "docdatetime"; "localyear"; "localdate"; "localtime"; "localdatetime"]%string -> free k) by (intros k H; exact H).
  destruct (put_all_ok (doc_pairs dd dt) m) as (m1 & E1 & R1 & G1 & H1).
  { unfold doc_pairs. do 4 (apply Forall_cons; [cbn [fst]; apply F; cbn [In]; auto 10|]). apply Forall_nil. }
  { cbn [doc_pairs map fst]. repeat constructor; cbn [In]; intuition discriminate. }
  rewrite E1; cbn [obind]. rewrite C; cbn [obind fst snd]. fold (local_pairs ld lt).
  destruct (put_all_ok (local_pairs ld lt) m1) as (m2 & E2 & R2 & G2 & H2).
  { unfold local_pairs. do 4 (apply Forall_cons; [cbn [fst]; apply F; cbn [In]; auto 10|]). apply Forall_nil. }
  { cbn [local_pairs map fst]. repeat constructor; cbn [In]; intuition discriminate. }
  exists m2. split; [exact E2|]. split; [unfold rest_eq in *; decompose [and] R1; decompose [and] R2; repeat split; congruence|].
  split.
  - intros k v T. unfold time_attr in T. rewrite <- !date_text_iso, <- !time_text_iso in T.
    change (In (k, v) (doc_pairs dd dt ++ local_pairs ld lt)) in T. apply in_app_or in T as [T|T]; [|apply G2; exact T].
    rewrite H2; [apply G1; exact T|]. apply (in_map fst) in T. cbn [fst] in T. intro U.
    cbn [doc_pairs local_pairs map fst In] in T, U. decompose [or] T; try contradiction; subst k; intuition discriminate.
  - intros k U. unfold time_names in U. rewrite H2, H1; [reflexivity| |]; intro V; apply U;
      cbn [doc_pairs local_pairs map fst In] in V |- *; tauto.
Qed.

(** texts are ordered as times are *)
Fixpoint compare_app (a a' : string) : forall r r', String.length a = String.length a' ->
  String.compare (a ++ r) (a' ++ r') = match String.compare a a' with Eq => String.compare r r' | c => c end.
Proof.
  intros r r' L. destruct a as [|x a], a' as [|x' a']; cbn in L; try discriminate; [reflexivity|].
  cbn [append String.compare]. destruct (Ascii.compare x x'); try reflexivity. apply compare_app. congruence.
Defined.
Definition upto (n : nat) : list N := map N.of_nat (seq 0 n).
Lemma in_upto k n : (N.to_nat k < n)%nat -> In k (upto n).
Proof. intros L. apply in_map_iff. exists (N.to_nat k). rewrite N2Nat.id. split; [reflexivity|]. apply in_seq. lia. Qed.
Definition comparison_eqb (x y : comparison) : bool := match x, y with Eq, Eq | Lt, Lt | Gt, Gt => true | _, _ => false end.
Lemma dd_table : forallb (fun x => forallb (fun y => comparison_eqb (String.compare (dd x) (dd y)) (N.compare x y)) (upto 100)) (upto 100) = true.
Proof. vm_compute. reflexivity. Qed.
Lemma dd_compare x y : x < 100 -> y < 100 -> String.compare (dd x) (dd y) = N.compare x y.
Proof.
  intros X Y. pose proof dd_table as T. rewrite forallb_forall in T. specialize (T x (in_upto x 100 ltac:(lia))).
  cbv beta in T. rewrite forallb_forall in T. specialize (T y (in_upto y 100 ltac:(lia))). cbv beta in T.
  destruct (String.compare (dd x) (dd y)), (x ?= y); try discriminate; reflexivity.
Qed.
Lemma dddd_compare x y : x < 10000 -> y < 10000 -> String.compare (dddd x) (dddd y) = N.compare x y.
Proof.
  intros X Y. rewrite <- !four_dddd. unfold four. rewrite !two_dd. rewrite compare_app by reflexivity.
  pose proof (N.div_mod x 100 ltac:(lia)). pose proof (N.mod_lt x 100 ltac:(lia)).
  pose proof (N.div_mod y 100 ltac:(lia)). pose proof (N.mod_lt y 100 ltac:(lia)).
  rewrite !dd_compare by (try apply N.div_lt_upper_bound; lia).
  destruct (N.compare_spec (x / 100) (y / 100)) as [E|E|E].
  - destruct (N.compare_spec (x mod 100) (y mod 100)) as [G|G|G]; symmetry;
      [apply N.compare_eq_iff|apply N.compare_lt_iff|apply N.compare_gt_iff]; lia.
  - symmetry. apply N.compare_lt_iff. lia.
  - symmetry. apply N.compare_gt_iff. lia.
Qed.
Lemma year_bound s d t : clock s d t -> s <= last_second -> d_year d < 10000.
Proof.
  intros (D & T & E) L. destruct (N.lt_ge_cases (d_year d) 10000) as [H|H]; [exact H|]. exfalso.
  pose proof (day_bounds d D) as B. pose proof (year_start_mono 10000 (d_year d) ltac:(lia) H) as M.
  change (year_start 10000) with 2932897 in M. unfold last_second in L. lia.
Qed.
Lemma month_bound d : is_date d -> d_month d < 100 /\ d_day d < 100.
Proof.
  intros (Y & M & D). split; [lia|]. apply N.le_lt_trans with (1 := proj2 D). unfold days_in_month.
  rewrite leap_day_01 by lia. destruct (leap (d_year d)), (d_month d =? 2), ((d_month d =? 4) || (d_month d =? 6) || (d_month d =? 9) || (d_month d =? 11)); lia.
Qed.
Lemma app_assoc_s (x y z : string) : ((x ++ y) ++ z)%string = (x ++ (y ++ z))%string.
Proof. induction x as [|c x IH]; [reflexivity|]. cbn [append]. rewrite IH. reflexivity. Qed.
Lemma text_before s s' d t d' t' : clock s d t -> clock s' d' t' -> s < s' -> s' <= last_second ->
  String.compare (iso_date d ++ " " ++ iso_time t) (iso_date d' ++ " " ++ iso_time t') = Lt.
Proof.
  intros C C' L M. pose proof (clock_before _ _ _ _ _ _ C C' L) as B.
  pose proof (year_bound _ _ _ C ltac:(lia)) as Y. pose proof (year_bound _ _ _ C' M) as Y'.
  destruct C as (D & T & _), C' as (D' & T' & _).
  pose proof (month_bound d D) as [M1 M2]. pose proof (month_bound d' D') as [M1' M2'].
  destruct T as (T1 & T2 & T3 & T4), T' as (U1 & U2 & U3 & U4).
  unfold iso_date, iso_time. rewrite !app_assoc_s. cbn [append].
  rewrite T4, U4. unfold date_before in B.
  repeat match goal with
  | |- String.compare (dddd ?x ++ _)%string (dddd ?y ++ _)%string = Lt => rewrite compare_app by reflexivity; rewrite (dddd_compare x y) by lia;
      destruct (N.compare_spec x y); [|reflexivity|exfalso; destruct B as [B|[B B']]; [|subst d']; lia]
  | |- String.compare (dd ?x ++ _)%string (dd ?y ++ _)%string = Lt => rewrite compare_app by reflexivity; rewrite (dd_compare x y) by lia;
      destruct (N.compare_spec x y); [|reflexivity|exfalso; destruct B as [B|[B B']]; [|subst d']; lia]
  | |- String.compare (String ?c ?x) (String ?c ?y) = Lt =>
      change (String.compare (String c x) (String c y)) with (match Ascii.compare c c with Eq => String.compare x y | o => o end);
      change (Ascii.compare c c) with Eq; cbv iota
  end.
  exfalso. destruct B as [B|[B B']]; lia.
Qed.

Lemma from_date J m s d t : to_zoned s = Ret (d, t) -> date_from_attr_or J (str m "docdate") s = Ret (chosen (given_date J m) d).
Proof. intros E. unfold date_from_attr_or. rewrite str_date, E. destruct (given_date J m); reflexivity. Qed.
Lemma from_time J m s d t : to_zoned s = Ret (d, t) -> time_from_attr_or J (str m "doctime") s = Ret (chosen (given_time J m) t).
Proof. intros E. unfold time_from_attr_or. rewrite str_time, E. destruct (given_time J m); reflexivity. Qed.

Lemma provide_inv J now mtime fixed m m' : provide_timestamps J now mtime fixed m = Ret m' ->
  (forall k, ~ In k time_names -> get m' k = get m k) /\ local_second now fixed <= last_second.
Proof.
  intros E.
  assert (E0 := E). unfold provide_timestamps in E.
  replace (or_default fixed (or_default mtime now)) with (document_second now mtime fixed) in E by (destruct fixed, mtime; reflexivity).
  replace (or_default fixed now) with (local_second now fixed) in E by (destruct fixed; reflexivity).
  destruct (date_from_attr_or J (str m "docdate") (document_second now mtime fixed)) as [dd|] eqn:A; [|discriminate].
  destruct (time_from_attr_or J (str m "doctime") (document_second now mtime fixed)) as [dt|] eqn:B; [|discriminate].
  cbn [obind] in E.
  match type of E with obind ?x _ = _ => destruct x as [m1|]; [|discriminate] end. cbn [obind] in E.
  destruct (to_zoned (local_second now fixed)) as [[ld lt]|] eqn:C; [|discriminate].
  destruct (provide_ok J now mtime fixed m dd dt ld lt A B C) as (m2 & E2 & R & _ & H).
  rewrite E0 in E2. injection E2 as <-. split.
  - intros k N. unfold get. rewrite (H k N). unfold resolve_attr.
    destruct R as (R1 & R2 & R3 & R4 & _). rewrite R1, R2, R3, R4. reflexivity.
  - destruct (N.le_gt_cases (local_second now fixed) last_second) as [L|L]; [exact L|].
    rewrite (to_zoned_late _ L) in C. discriminate.
Qed.

(** the digits of a number *)
Definition dig (k : N) (u : Decimal.uint) : Decimal.uint :=
  match k with
  | 0 => Decimal.D0 u | 1 => Decimal.D1 u | 2 => Decimal.D2 u | 3 => Decimal.D3 u | 4 => Decimal.D4 u | 5 => Decimal.D5 u | 6 => Decimal.D6 u | 7 => Decimal.D7 u | 8 => Decimal.D8 u | _ => Decimal.D9 u
  end.
Ltac ten k := let H := fresh in assert (H : k = 0 \/ k = 1 \/ k = 2 \/ k = 3 \/ k = 4 \/ k = 5 \/ k = 6 \/ k = 7 \/ k = 8 \/ k = 9) by lia; decompose [or] H; clear H; subst k.
Lemma dig_acc k u acc : k < 10 -> Nat.of_uint_acc (dig k u) acc = Nat.of_uint_acc u (N.to_nat k + 10 * acc)%nat.
Proof. intros K. ten k; cbn [dig Nat.of_uint_acc]; rewrite Nat.tail_mul_spec; reflexivity. Qed.
Lemma dig_string k u : k < 10 -> DecimalString.NilEmpty.string_of_uint (dig k u) = String (ascii_of_N (48 + k)) (DecimalString.NilEmpty.string_of_uint u).
Proof. intros K. ten k; reflexivity. Qed.
Lemma year_digits y : 1000 <= y -> y < 10000 -> dec (N.to_nat y) = dddd y.
Proof.
  intros A B. set (a := y / 1000). set (b := y / 100 mod 10). set (c := y / 10 mod 10). set (e := y mod 10).
  assert (KA : 1 <= a < 10) by (unfold a; split; [apply N.div_le_lower_bound; lia|apply N.div_lt_upper_bound; lia]). assert (KB : b < 10) by (now apply N.mod_lt). assert (KC : c < 10) by (now apply N.mod_lt). assert (KE : e < 10) by (now apply N.mod_lt).
  assert (S : y = e + 10 * (c + 10 * (b + 10 * a))).
  { unfold a, b, c, e. pose proof (N.div_mod y 10 ltac:(lia)) as D1. pose proof (N.div_mod (y / 10) 10 ltac:(lia)) as D2. pose proof (N.div_mod (y / 100) 10 ltac:(lia)) as D3. rewrite N.div_div in D2 by lia. rewrite N.div_div in D3 by lia. change (10 * 10) with 100 in D2. change (100 * 10) with 1000 in D3. lia. }
  set (d := dig a (dig b (dig c (dig e Decimal.Nil)))). assert (V : Nat.of_uint d = N.to_nat y).
  { unfold Nat.of_uint, d. rewrite !dig_acc by lia. cbn [Nat.of_uint_acc]. lia. }
  unfold dec. rewrite <- V, DecimalNat.Unsigned.to_of. replace (Decimal.unorm d) with d by (unfold d; generalize KA; generalize a; clear; intros a K; ten a; first [lia|reflexivity]).
  replace (DecimalString.NilZero.string_of_uint d) with (DecimalString.NilEmpty.string_of_uint d) by (unfold d; generalize KA; generalize a; clear; intros a K; ten a; reflexivity). unfold d. rewrite !dig_string by lia. reflexivity.
Qed.
