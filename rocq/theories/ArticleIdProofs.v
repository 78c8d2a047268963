(** The ids of the sections of an article (C70). *)
From Verif Require Import Base Utf8 WholeSpec ArticleSpec WholePieceProofs WholeLexProofs ArticleModel ArticleBlockProofs.
From Verif Require Import SectionIdModel SectionIdSpec SectionIdProofs SectionIdProps.
From Coq Require Import NArith.
Import ListNotations.
Open Scope list_scope.
Open Scope nat_scope.

Notation cp := code_points.
Lemma cp_inj x y : cp x = cp y -> x = y.
Proof.
  unfold code_points. revert y. induction x as [|c x IH]; intros [|d y]; cbn [map]; try discriminate; auto. intros [= E F]. rewrite (IH y F). f_equal. rewrite <- (ascii_N_embedding c), <- (ascii_N_embedding d). now rewrite E.
Qed.
Lemma cp_app x y : cp (x ++ y) = cp x ++ cp y.
Proof. apply map_app. Qed.
Lemma cp_string x : map ascii_of_N (cp x) = x.
Proof. unfold code_points. rewrite map_map. rewrite <- (map_id x) at 2. apply map_ext. apply ascii_N_embedding. Qed.

(** ** Words *)
Definition alnum (w : bytes) : Prop := w <> [] /\ forallb (fun c => a_letter c || a_digit c) w = true.
(** words and the punctuation behind them *)
Fixpoint mark_pairs (x : bytes) (l : list bytes) : list (bytes * bytes) := match l with [] => [] | w :: r => match r with [] => [(w, x)] | _ => (w, []) :: mark_pairs x r end end.
Definition word_pairs (i : item) : list (bytes * bytes) :=
  match fst i with
  | Plain w => [(w, snd i)]
  | Special _ => []
  | Marked _ ws => mark_pairs (snd i) ws
  end.
Definition pair_text (p : bytes * bytes) : bytes := fst p ++ snd p.
Definition pair_ok (p : bytes * bytes) : Prop := alnum (fst p) /\ punctuation_ok (snd p) = true.
Lemma join_app sep x y : x <> [] -> y <> [] -> join sep (x ++ y) = join sep x ++ sep ++ join sep y.
Proof.
  intros X Y. induction x as [|a x IH]; [easy|]. destruct x as [|b0 x].
  - cbn [app]. destruct y as [|c y]; [easy|]. reflexivity.
  - change (join sep ((a :: b0 :: x) ++ y)) with (a ++ sep ++ join sep ((b0 :: x) ++ y)). rewrite IH by discriminate. change (join sep (a :: b0 :: x)) with (a ++ sep ++ join sep (b0 :: x)). now rewrite <- !app_assoc.
Qed.
Lemma name_alnum w : a_name w = true -> alnum w.
Proof. destruct w as [|c w]; [discriminate|]. cbn [a_name]. intros H. apply andb_true_iff in H as [L H]. split; [discriminate|]. cbn [forallb]. now rewrite L, H. Qed.
Lemma number_alnum w : a_number w = true -> alnum w.
Proof. destruct w as [|c w]; [discriminate|]. unfold a_number. intros H. split; [discriminate|]. rewrite forallb_forall in *. intros d I. rewrite (H d I). apply orb_true_r. Qed.
Lemma item_pairs i : heading_phrase_ok (fst i) && punctuation_ok (snd i) = true ->
  word_pairs i <> [] /\ Forall pair_ok (word_pairs i) /\ join ($" ") (map pair_text (word_pairs i)) = phrase_text (fst i) ++ snd i /\ map fst (word_pairs i) = phrase_words (fst i).
Proof.
  destruct i as [p x]. cbn [fst snd]. intros H. apply andb_true_iff in H as [H X]. destruct p as [w|c|st ws]; cbn [heading_phrase_ok phrase_ok] in H; [|discriminate|].
  - unfold word_pairs. cbn [fst snd phrase_text phrase_words map]. split; [discriminate|]. split; [|split; reflexivity]. constructor; [|constructor]. split; [|exact X]. apply orb_true_iff in H as [H|H]; [now apply name_alnum|now apply number_alnum].
  - unfold word_pairs. cbn [fst snd phrase_text phrase_words]. destruct ws as [|w ws]; [discriminate|]. revert w H. induction ws as [|v ws IH]; intros w H; cbn [forallb] in H; apply andb_true_iff in H as [W H].
    + cbn [map join fst pair_text snd]. split; [discriminate|]. split; [|split; reflexivity]. constructor; [|constructor]. split; [now apply name_alnum|exact X].
    + destruct (IH v H) as (N & F & J & M). split; [discriminate|]. split; [|split].
      * constructor; [split; [now apply name_alnum|reflexivity]|exact F].
      * change (mark_pairs x (w :: v :: ws)) with ((w, []) :: mark_pairs x (v :: ws)). destruct (mark_pairs x (v :: ws)) as [|q qs] eqn:E; [easy|].
        change (join ($" ") (map pair_text ((w, []) :: q :: qs))) with (pair_text (w, []) ++ $" " ++ join ($" ") (map pair_text (q :: qs))). rewrite J. unfold pair_text. cbn [fst snd]. rewrite app_nil_r. change (join ($" ") (w :: v :: ws)) with (w ++ $" " ++ join ($" ") (v :: ws)). now rewrite <- !app_assoc.
      * change (mark_pairs x (w :: v :: ws)) with ((w, []) :: mark_pairs x (v :: ws)). cbn [map fst]. f_equal. exact M.
Qed.
Lemma heading_pairs h : heading_ok h = true -> let ps := flat_map word_pairs h in
  ps <> [] /\ Forall pair_ok ps /\ join ($" ") (map pair_text ps) = line_text h /\ map fst ps = heading_words h.
Proof.
  cbn zeta. unfold heading_ok. destruct h as [|i h]; [discriminate|]. revert i. induction h as [|j h IH]; intros i H; cbn [forallb] in H; apply andb_true_iff in H as [I H]; destruct (item_pairs i I) as (N & F & J & M).
  - cbn [flat_map]. rewrite app_nil_r. repeat split; auto. cbn [heading_words flat_map]. unfold heading_words. cbn [flat_map]. now rewrite app_nil_r.
  - destruct (IH j H) as (N' & F' & J' & M'). cbn [flat_map] in *. split; [destruct (word_pairs i); [easy|discriminate]|]. split; [now apply Forall_app|]. split.
    + rewrite map_app, join_app; [|now destruct (word_pairs i)|intros E; apply map_eq_nil in E; now apply N']. rewrite J, J'. reflexivity.
    + rewrite map_app, M, M'. reflexivity.
Qed.
Lemma lower_cp c : N_of_ascii (lower c) = ascii_lower (N_of_ascii c).
Proof. assert (F := by_byte (fun c => N.eqb (N_of_ascii (lower c)) (ascii_lower (N_of_ascii c))) eq_refl c). now apply N.eqb_eq. Qed.
Lemma alnum_cp c : a_letter c || a_digit c = true -> ascii_alnum (N_of_ascii c) = true.
Proof. intros H. assert (F := by_byte (fun c => implb (a_letter c || a_digit c) (ascii_alnum (N_of_ascii c))) eq_refl c). cbn beta in F. now rewrite H in F. Qed.
Lemma alnum_not_sep c : a_letter c || a_digit c = true -> N_of_ascii (lower c) <> 95%N.
Proof. intros H E. assert (F := by_byte (fun c => implb (a_letter c || a_digit c) (negb (N.eqb (N_of_ascii (lower c)) 95))) eq_refl c). cbn beta in F. rewrite H, E in F. discriminate F. Qed.
Section Ids.
Variable U : unicode.
Lemma word_cp w : forallb (fun c => a_letter c || a_digit c) w = true -> forall v, word_of U v [] -> word_of U (cp w ++ v) (cp (map lower w)).
Proof.
  intros H v V. induction w as [|c w IH]; [exact V|]. cbn [forallb] in H. apply andb_true_iff in H as [L H]. cbn [code_points map app]. rewrite lower_cp. apply (W_kept U _ [_]); [|now apply IH]. apply K_ascii. now apply alnum_cp.
Qed.
Lemma in_not (c : N) l : existsb (N.eqb c) l = false -> ~ In c l.
Proof. intros E I. assert (existsb (N.eqb c) l = true) by (apply existsb_exists; exists c; split; [exact I|apply N.eqb_refl]). congruence. Qed.
Lemma mark_dropped c : c = "!"%char \/ c = "?"%char -> dropped U (N_of_ascii c).
Proof. intros [-> | ->]; (split; [apply in_not; reflexivity|]; split; [apply in_not; reflexivity|]; split; [reflexivity|]; vm_compute; intros H; now destruct H). Qed.
Lemma space_gap : gap 32%N. Proof. now left. Qed.
Lemma punctuation_cases x : punctuation_ok x = true -> x = [] \/ (exists c, x = [c] /\ (c = "!"%char \/ c = "?"%char)) \/ exists c, x = [c] /\ gap (N_of_ascii c).
Proof.
  destruct x as [|c [|d x]]; [now left| |discriminate]. intros H. right. cbn [punctuation_ok existsb] in H. rewrite !orb_true_iff in H. rewrite !Ascii.eqb_eq in H. decompose [or] H; try discriminate; subst; eauto; right; (eexists; split; [reflexivity|]); cbn; tauto.
Qed.
Lemma gap_punctuation x : punctuation_ok x = true -> gap_text U (cp (x ++ $" ")).
Proof.
  intros H. apply punctuation_cases in H as [->|[(c & -> & C)|(c & -> & C)]]; cbn; (split; [|]).
  - constructor; [left; apply space_gap|constructor].
  - constructor. apply space_gap.
  - constructor; [right; now apply mark_dropped|]. constructor; [left; apply space_gap|constructor].
  - right. constructor. apply space_gap.
  - constructor; [now left|]. constructor; [left; apply space_gap|constructor].
  - now constructor.
Qed.
Lemma lower_nonempty w : alnum w -> cp (map lower w) <> [].
Proof. intros [N _] E. apply map_eq_nil, map_eq_nil in E. easy. Qed.
Lemma words_cp ps : ps <> [] -> Forall pair_ok ps -> words_of U (cp (join ($" ") (map pair_text ps))) (map (fun w => cp (map lower w)) (map fst ps)).
Proof.
  intros N F. induction F as [|[w x] ps [A X] F IH]; [easy|]. cbn [fst snd] in *. destruct ps as [|q ps].
  - cbn [map join fst]. unfold pair_text. cbn [fst snd]. rewrite cp_app. apply punctuation_cases in X as [->|[(c & -> & C)|(c & -> & C)]].
    + apply Ws_last; [apply word_cp; [apply A|constructor]|now apply lower_nonempty].
    + apply Ws_last; [|now apply lower_nonempty]. apply word_cp; [apply A|]. apply W_dropped; [now apply mark_dropped|constructor].
    + apply Ws_trailing; [|now apply lower_nonempty|split; [constructor; [now left|constructor]|now constructor]]. rewrite <- (app_nil_r (cp w)). apply word_cp; [apply A|constructor].
  - change (join ($" ") (map pair_text ((w, x) :: q :: ps))) with (pair_text (w, x) ++ $" " ++ join ($" ") (map pair_text (q :: ps))). unfold pair_text at 1. cbn [fst snd]. replace ((w ++ x) ++ $" " ++ join ($" ") (map pair_text (q :: ps))) with (w ++ (x ++ $" ") ++ join ($" ") (map pair_text (q :: ps))) by now rewrite <- !app_assoc.
    rewrite cp_app, (cp_app (x ++ _)). change (map (fun w => cp (map lower w)) (map fst ((w, x) :: q :: ps))) with (cp (map lower w) :: map (fun w => cp (map lower w)) (map fst (q :: ps))).
    apply Ws_more; [|now apply lower_nonempty|now apply gap_punctuation|apply IH; discriminate]. rewrite <- (app_nil_r (cp w)). apply word_cp; [apply A|constructor].
Qed.
Lemma joined_cp ts : joined (Some 95%N) (map cp ts) = cp (join ($"_") ts).
Proof.
  induction ts as [|t ts IH]; [reflexivity|]. destruct ts as [|u ts]; [reflexivity|]. change (joined (Some 95%N) (map cp (t :: u :: ts))) with (cp t ++ sep_text (Some 95%N) ++ joined (Some 95%N) (map cp (u :: ts))). rewrite IH.
  change (join ($"_") (t :: u :: ts)) with (t ++ $"_" ++ join ($"_") (u :: ts)). now rewrite !cp_app.
Qed.

(** ** Numbers *)
Lemma taken_in used x : taken used x = true <-> In (cp x) (map cp used).
Proof.
  unfold taken. rewrite existsb_exists. split.
  - intros (y & I & E). apply bytes_eqb_eq in E. subst. now apply in_map.
  - intros I. apply in_map_iff in I as (y & E & I). apply cp_inj in E. subst. exists x. split; [exact I|]. apply bytes_eqb_eq. reflexivity.
Qed.
Lemma find_seq f k : forall a n, a <= n < a + k -> f n = true -> (forall m, a <= m < n -> f m = false) -> find f (List.seq a k) = Some n.
Proof.
  induction k as [|k IH]; intros a n R T F; [lia|]. cbn [List.seq find]. destruct (Nat.eq_dec a n) as [->|NE]; [now rewrite T|]. rewrite F by lia. apply IH; [lia|exact T|]. intros m M. apply F. lia.
Qed.
Lemma numbered_cp x n : numbered (cp x) (Some 95%N) n = cp (numbered_id x n).
Proof. unfold numbered, numbered_id. rewrite !cp_app. reflexivity. Qed.
Lemma pick_cp used x id : first_unused (map cp used) (cp x) (Some 95%N) true id -> id = cp (pick used x).
Proof.
  unfold pick. intros [(_ & N & ->)|(I & n & L & -> & N & B)].
  - destruct (taken used x) eqn:T; [|reflexivity]. apply taken_in in T. contradiction.
  - apply (proj2 (taken_in used x)) in I; [|reflexivity]. rewrite I. rewrite (find_seq _ _ 2 n); [now rewrite numbered_cp| | |].
    + split; [exact L|]. assert (IN : incl (map (numbered (cp x) (Some 95%N)) (List.seq 2 (n - 2))) (map cp used)).
      { intros y Y. apply in_map_iff in Y as (m & <- & M). apply in_seq in M. apply B. lia. }
      apply NoDup_incl_length in IN; [rewrite !map_length, seq_length in IN; lia|]. apply FinFun.Injective_map_NoDup; [intros m1 m2; apply numbered_inj|apply seq_NoDup].
    + apply negb_true_iff. destruct (taken used (numbered_id x n)) eqn:T; [|reflexivity]. apply taken_in in T. rewrite numbered_cp in N. contradiction.
    + intros m M. apply negb_false_iff. apply taken_in. rewrite <- numbered_cp. apply B. lia.
Qed.
Lemma heading_ids_cp hs : forall used, forallb heading_ok hs = true -> heading_ids U (map cp used) (map (fun h => heading_of (line_text h)) hs) = Ret (Some (map (fun x => Some (cp x)) (ids_from used hs))).
Proof.
  induction hs as [|h hs IH]; intros used OK; [reflexivity|]. cbn [forallb] in OK. apply andb_true_iff in OK as [H OK]. destruct (heading_pairs h H) as (N & F & J & M). pose proof (words_cp _ N F) as W. rewrite J, M in W. cbn [map heading_ids h_settings h_explicit h_title heading_of].
  set (st := mkSettings false NotSet NotSet) in *. destruct (C21_words_of_title U st _ _ eq_refl W) with (used := map cp used) as (id & E & FU).
  - intros s t [= <-] I. apply in_map_iff in I as (w & <- & I). rewrite <- M in I. apply in_map_iff in I as ([w' x] & <- & I). rewrite Forall_forall in F. destruct (F _ I) as [[_ A] _]. cbn [fst] in *.
    intros B. unfold code_points in B. rewrite map_map in B. apply in_map_iff in B as (c & E & C). rewrite forallb_forall in A. exact (alnum_not_sep c (A c C) E).
  - rewrite E. change (id_sep st) with (Some 95%N) in FU. change (id_prefix st) with (cp ($"_")) in FU. rewrite <- (map_map (map lower) cp), joined_cp, <- cp_app in FU. apply pick_cp in FU. subst id.
    specialize (IH (pick used ($"_" ++ join ($"_") (map (map lower) (heading_words h))) :: used) OK). cbn [map] in IH. rewrite IH. reflexivity.
Qed.
Lemma article_ids_of hs : forallb heading_ok hs = true -> ids_of U (map line_text hs) = Some (map (fun x => Some (string_of_list_ascii x)) (ids_from [] hs)).
Proof.
  intros OK. unfold ids_of. rewrite map_map. pose proof (heading_ids_cp hs [] OK) as E. cbn [map] in E. rewrite E. rewrite map_map. f_equal. apply map_ext. intros x. cbn [option_map]. now rewrite cp_string.
Qed.
End Ids.
