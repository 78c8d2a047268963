(** Letters are kept: lemmas for InlineLettersProps.v. *)
From Verif Require Import Base InlineModel InlineSpec SubsProofs InlineTermProofs InlineLettersSpec.

(** ** Letters *)
Lemma letters_app a b : letters (a ++ b) = letters a ++ letters b.
Proof. apply filter_app. Qed.
Lemma all_app a b : all_letters (a ++ b) = all_letters a ++ all_letters b.
Proof. apply flat_map_app. Qed.
Lemma all_cons n b : all_letters (n :: b) = node_letters n ++ all_letters b.
Proof. reflexivity. Qed.
Lemma letters_firstn_nil n x : letters x = [] -> letters (firstn n x) = [].
Proof.
  intros H. rewrite <- (firstn_skipn n x), letters_app in H. apply app_eq_nil in H. tauto.
Qed.

(** ** Tokens *)
Definition okt (md : bool) (t : tok) : Prop :=
  lexed t /\ one_of [AttrRef; AttrPassDbl] t = false /\ ~ (tk t = ForwardSlashes /\ length (tx t) = 2) /\
  (if md then passes_nothing t /\ tk t <> PreprocPassthru else calls_nothing t /\ (tk t = PreprocPassthru -> tx t = $"^")).
Section letters.
Variable V : nat -> bytes.
Variable md : bool.
Definition LT (t : tok) : bytes := if is_k PreprocPassthru t then V (slot (inf t)) else letters (tx t).
Definition Lts (ts : list tok) : bytes := flat_map LT ts.
Definition Lls (ls : list iline) : bytes := flat_map (fun l => Lts (toks l)) ls.
Lemma Lts_app a b : Lts (a ++ b) = Lts a ++ Lts b.
Proof. apply flat_map_app. Qed.
Lemma Lts_cons t b : Lts (t :: b) = LT t ++ Lts b.
Proof. reflexivity. Qed.
Lemma Lls_cons l b : Lls (l :: b) = Lts (toks l) ++ Lls b.
Proof. reflexivity. Qed.
Lemma Lls_restore l ls : Lls (restore l ls) = Lts (toks l) ++ Lls ls.
Proof. unfold restore. destruct (toks l) eqn:T; [reflexivity|]. now rewrite Lls_cons, T. Qed.
Lemma is_k_eq k t : is_k k t = true -> tk t = k.
Proof. unfold is_k. now destruct (kind_eqb_spec (tk t) k). Qed.
Lemma is_k_refl k t : tk t = k -> is_k k t = true.
Proof. unfold is_k. now destruct (kind_eqb_spec (tk t) k). Qed.
Lemma muted t : lexed t -> one_of mute t = true -> LT t = [].
Proof.
  intros [L _] M. unfold LT. destruct (is_k PreprocPassthru t) eqn:P; [|auto]. apply is_k_eq in P. unfold one_of in M. rewrite P in M. discriminate.
Qed.
Lemma mute_k k t : okt md t -> is_k k t = true -> existsb (kind_eqb k) mute = true -> LT t = [].
Proof. intros [L _] K M. apply muted; [exact L|]. unfold one_of. apply is_k_eq in K. now rewrite K. Qed.
Lemma LT_plain t : is_k PreprocPassthru t = false -> LT t = letters (tx t).
Proof. unfold LT. now intros ->. Qed.
Lemma LT_kind k t : is_k k t = true -> kind_eqb k PreprocPassthru = false -> LT t = letters (tx t).
Proof. intros K N. apply LT_plain. unfold is_k in *. destruct (kind_eqb_spec (tk t) k) as [->|]; [exact N|discriminate]. Qed.

(** ** Windows *)
Definition seg (v l : list tok) : Prop := exists p r, l = p ++ v ++ r.
Lemma seg_refl l : seg l l.
Proof. exists [], []. now rewrite app_nil_r. Qed.
Lemma seg_trans a b c : seg a b -> seg b c -> seg a c.
Proof. intros (p & r & ->) (p' & r' & ->). exists (p' ++ p), (r ++ r'). now rewrite <- !app_assoc. Qed.
Lemma seg_app_r p m : seg m (p ++ m).
Proof. exists p, []. now rewrite app_nil_r. Qed.
Lemma seg_app_l p m : seg p (p ++ m).
Proof. exists [], m. reflexivity. Qed.
Lemma seg_nil l : seg [] l.
Proof. exists [], l. reflexivity. Qed.
Lemma seg_cons t a b : seg a b -> seg a (t :: b).
Proof. intros (p & r & ->). now exists (t :: p), r. Qed.
Lemma seg_skipn n l : seg (skipn n l) l.
Proof. rewrite <- (firstn_skipn n l) at 2. apply seg_app_r. Qed.
Lemma seg_firstn n l : seg (firstn n l) l.
Proof. rewrite <- (firstn_skipn n l) at 2. apply seg_app_l. Qed.
Lemma seg_tl l : seg (tl l) l.
Proof. destruct l; [apply seg_nil|apply seg_cons, seg_refl]. Qed.
Lemma seg_removelast l : seg (removelast l) l.
Proof. destruct l as [|t l]; [apply seg_nil|]. rewrite (app_removelast_last (l := t :: l) t) at 2 by discriminate. apply seg_app_l. Qed.
Lemma seg_rev a b : seg a b -> seg (rev a) (rev b).
Proof. intros (p & r & ->). exists (rev r), (rev p). now rewrite !rev_app_distr, app_assoc. Qed.
Lemma seg_Forall P v l : seg v l -> Forall P l -> Forall P v.
Proof. intros (p & r & ->) F. apply Forall_app in F. destruct F as [_ F]. apply Forall_app in F. tauto. Qed.
Lemma seg_follows a b v l : seg v l -> follows a b v -> follows a b l.
Proof. intros (p & r & ->) (p' & x & dq & y & r' & -> & H). exists (p ++ p'), x, dq, y, (r' ++ r). split; [|exact H]. now rewrite <- !app_assoc; cbn; rewrite <- !app_assoc. Qed.
Lemma calm_mono v l : (forall a b, follows a b v -> follows a b l) -> calm l -> calm v.
Proof. unfold calm. intros H. pose proof (H CloseBracket [Backtick]). pose proof (H Backtick [SingleQuote; DoubleQuote]). pose proof (H OpenBracket [OpenBracket]). pose proof (H Backslash [CloseBracket]). tauto. Qed.
Lemma calm_seg v l : seg v l -> calm l -> calm v.
Proof. intros S. apply calm_mono. intros a b. now apply seg_follows. Qed.
Lemma follows_cons a b c l : follows a b (c :: l) -> tk c <> a -> follows a b l.
Proof. intros (p & x & dq & y & r & E & A & R) N. destruct p as [|z p]; cbn in E; injection E as -> ->; [contradiction|]. now exists p, x, dq, y, r. Qed.
Lemma calm_cons c l : one_of [CloseBracket; Backtick; OpenBracket; Backslash] c = false -> calm l -> calm (c :: l).
Proof.
  intros N. assert (F : forall a b, existsb (kind_eqb a) [CloseBracket; Backtick; OpenBracket; Backslash] = true -> follows a b (c :: l) -> follows a b l).
  { intros a b A F. apply (follows_cons a b c l F). intros <-. unfold one_of in N. congruence. }
  unfold calm. pose proof (F CloseBracket [Backtick] eq_refl). pose proof (F Backtick [SingleQuote; DoubleQuote] eq_refl). pose proof (F OpenBracket [OpenBracket] eq_refl). pose proof (F Backslash [CloseBracket] eq_refl). tauto.
Qed.
Lemma follows_snoc a b c l : follows a b (l ++ [c]) -> one_of b c = false -> follows a b l.
Proof.
  intros (p & x & dq & y & r & E & A & D & B) N. destruct r as [|z r] using rev_ind.
  - change (p ++ x :: dq ++ [y]) with (p ++ (x :: dq) ++ [y]) in E. rewrite app_assoc in E. apply app_inj_tail in E. destruct E as [_ <-]. congruence.
  - clear IHr. change (p ++ x :: dq ++ y :: r ++ [z]) with (p ++ (x :: dq ++ (y :: r) ++ [z])) in E.
    change (x :: dq ++ (y :: r) ++ [z]) with ((x :: dq) ++ (y :: r) ++ [z]) in E. rewrite !app_assoc in E. apply app_inj_tail in E. destruct E as [-> _].
    exists p, x, dq, y, r. repeat split; auto. now rewrite <- app_assoc.
Qed.
Lemma calm_snoc c l : one_of [CloseBracket; Backtick; OpenBracket; SingleQuote; DoubleQuote] c = false -> calm l -> calm (l ++ [c]).
Proof.
  intros N. assert (F : forall a b, (forall k, In k b -> existsb (kind_eqb k) [CloseBracket; Backtick; OpenBracket; SingleQuote; DoubleQuote] = true) -> follows a b (l ++ [c]) -> follows a b l).
  { intros a b A F. apply (follows_snoc a b c l F). destruct (one_of b c) eqn:O; [|reflexivity]. unfold one_of in O. apply existsb_exists in O. destruct O as (k & K & Q).
    destruct (kind_eqb_spec (tk c) k) as [<-|]; [|discriminate]. apply A in K. unfold one_of in N. congruence. }
  unfold calm. pose proof (F CloseBracket [Backtick] ltac:(intros k [<-|[]]; reflexivity)). pose proof (F Backtick [SingleQuote; DoubleQuote] ltac:(intros k [<-|[<-|[]]]; reflexivity)).
  pose proof (F OpenBracket [OpenBracket] ltac:(intros k [<-|[]]; reflexivity)). pose proof (F Backslash [CloseBracket] ltac:(intros k [<-|[]]; reflexivity)). tauto.
Qed.
Lemma follows_insert a b d u v : tk d = DoubleQuote -> follows a b (u ++ v) -> follows a b (u ++ d :: v).
Proof.
  intros Q (p & x & dq & y & r & E & A & D & B). revert p E. induction u as [|z u IH]; intros p E.
  - cbn in *. subst v. exists (d :: p), x, dq, y, r. auto.
  - destruct p as [|z' p]; cbn in E; injection E as -> E.
    + (* the window starts here *) clear IH. revert dq D E. induction u as [|w u IH]; intros dq D E.
      * cbn in E. subst v. exists [], x, (d :: dq), y, r. repeat split; auto.
      * destruct dq as [|w' dq]; cbn in E; injection E as -> E.
        -- subst. exists [], x, [], y, (u ++ d :: v). repeat split; auto.
        -- inversion D; subst. destruct (IH dq H2 E) as (p1 & x1 & dq1 & y1 & r1 & E1 & A1 & D1 & B1).
           destruct p1 as [|z1 p1]; cbn in E1; injection E1 as E0 E1.
           ++ subst x1. exists [], x, (w' :: dq1), y1, r1. cbn. rewrite E1. repeat split; auto.
           ++ exists (x :: w' :: p1), x1, dq1, y1, r1. cbn. rewrite E1. repeat split; auto.
    + destruct (IH p E) as (p1 & x1 & dq1 & y1 & r1 & E1 & R1). exists (z' :: p1), x1, dq1, y1, r1. cbn. rewrite E1. now split.
Qed.
Lemma calm_drop d u v : tk d = DoubleQuote -> calm (u ++ d :: v) -> calm (u ++ v).
Proof. intros D. apply calm_mono. intros a b. now apply follows_insert. Qed.

(** ** Lines *)
Definition okl (l : iline) : Prop := Forall (okt md) (toks l) /\ (md = true -> passm l = false /\ pluses l = 0).
Definition okls (ls : list iline) : Prop := Forall okl ls /\ (md = true -> calm (flat_map toks ls)).
Definition okc (cur : option iline) (ls : list iline) : Prop := okls (match cur with Some l => l :: ls | None => ls end).
Lemma okls_nil : okls [].
Proof. split; [constructor|]. intros _. split; left; intros (p & x & dq & y & r & E & _); destruct p; discriminate. Qed.
Lemma okls_toks l ls : okls (l :: ls) -> Forall (okt md) (toks l).
Proof. intros [F _]. inversion F as [|? ? [A _]]. exact A. Qed.
Lemma okls_tail l ls : okls (l :: ls) -> okls ls.
Proof. intros [F C]. inversion F; subst. split; [assumption|]. intros M. eapply calm_seg; [|apply C, M]. cbn. apply seg_app_r. Qed.
Lemma okls_suffix l ls p m : okls (l :: ls) -> toks l = p ++ m -> okls (adv l m :: ls).
Proof.
  intros [F C] T. inversion F as [|? ? [A B] F']; subst. split; [constructor; [|exact F']|].
  - split; [|exact B]. cbn [toks adv]. rewrite T in A. apply Forall_app in A. tauto.
  - intros M. specialize (C M). cbn in *. rewrite T, <- app_assoc in C. eapply calm_seg; [|exact C]. apply seg_app_r.
Qed.
Lemma okls_restore l ls : okls (l :: ls) -> okls (restore l ls).
Proof. intros O. unfold restore. destruct (toks l); [now apply okls_tail in O|exact O]. Qed.
Lemma okls_seg l ls v : okls (l :: ls) -> seg v (toks l) -> okls [new_line v].
Proof.
  intros [F C] S. inversion F as [|? ? [A B] F']; subst. split.
  - constructor; [|constructor]. split; [eapply seg_Forall; eassumption|]. intros _. split; reflexivity.
  - intros M. cbn. rewrite app_nil_r. eapply calm_seg; [|apply C, M]. cbn. eapply seg_trans; [exact S|apply seg_app_l].
Qed.
Lemma okls_new v : Forall (okt md) v -> (md = true -> calm v) -> okls [new_line v].
Proof. intros F C. split; [constructor; [|constructor]; split; [exact F|now split]|]. cbn. rewrite app_nil_r. exact C. Qed.
Lemma okls_push c l ls : okls (l :: ls) -> okt md c -> one_of [CloseBracket; Backtick; OpenBracket; Backslash] c = false -> okls (adv l (c :: toks l) :: ls).
Proof.
  intros [F C] K N. inversion F as [|? ? [A B] F']; subst. split; [constructor; [|exact F']; split; [now constructor|exact B]|].
  intros M. cbn. apply calm_cons; [exact N|]. apply C, M.
Qed.
Lemma consume_ok ls t m : consume_tok ls = Some (t, m) -> okls ls -> okt md t /\ okls m /\ Lls ls = LT t ++ Lls m /\ flat_map toks ls = t :: flat_map toks m.
Proof.
  destruct ls as [|l r]; [discriminate|]. cbn [consume_tok]. destruct (toks l) as [|u v] eqn:T; [discriminate|]. intros E O. injection E as <- <-.
  pose proof (okls_toks _ _ O) as F. rewrite T in F. inversion F; subst. split; [assumption|]. split; [|split].
  - apply okls_restore. eapply (okls_suffix l r [u]); [exact O|exact T].
  - rewrite Lls_restore. cbn [Lls flat_map toks adv]. rewrite T. cbn. now rewrite app_assoc.
  - cbn. rewrite T. unfold restore. cbn [toks adv]. destruct v; reflexivity.
Qed.

(** ** States *)
Definition ext (s s' : st) : Prop := (exists m, map fst (pass_of s') = map fst (pass_of s) ++ m) /\ (exists e, errs_of s' = errs_of s ++ e).
Definition fine (s : st) : Prop := (forall i p, nth_error (pass_of s) i = Some p -> V i = all_letters (fst p)) /\ ~ In TooManyTerms (errs_of s).
Definition calmly (sb : subs) : Prop := md = true -> contains sb InlineFormatting && contains sb Callouts = false.
Definition inv (s : st) : Prop := calmly (subs_of s) /\ (md = true -> aps_of s = None).
Lemma ext_refl s : ext s s.
Proof. split; exists []; now rewrite app_nil_r. Qed.
Lemma ext_trans a b c : ext a b -> ext b c -> ext a c.
Proof. intros [(m & M) (e & E)] [(m' & M') (e' & E')]. split; [exists (m ++ m'); now rewrite M', M, app_assoc|exists (e ++ e'); now rewrite E', E, app_assoc]. Qed.
Lemma ext_same s s' s2 : ext s s' -> pass_of s2 = pass_of s' -> errs_of s2 = errs_of s' -> ext s s2.
Proof. unfold ext. now intros H -> ->. Qed.
Lemma ext_report e s s' : ext s s' -> ext s (report e s').
Proof. intros [P (x & E)]. split; [exact P|]. exists (x ++ [e]). cbn. now rewrite E, app_assoc. Qed.
Lemma ext_fine s s' : ext s s' -> fine s' -> fine s.
Proof.
  intros [(m & M) (e & E)] [F N]. split.
  - intros i [ns b] H. assert (X : nth_error (map fst (pass_of s')) i = Some ns).
    { rewrite M, nth_error_app1; [now rewrite nth_error_map, H|]. apply nth_error_Some. rewrite nth_error_map, H. discriminate. }
    rewrite nth_error_map in X. destruct (nth_error (pass_of s') i) as [[ns' b']|] eqn:Y; [|discriminate]. injection X as ->. exact (F i _ Y).
  - intros H. apply N. rewrite E. apply in_app_iff. now left.
Qed.
Lemma fine_same s s2 : pass_of s2 = pass_of s -> errs_of s2 = errs_of s -> fine s2 -> fine s.
Proof. unfold fine. now intros -> ->. Qed.

(** ** What was parsed so far *)
Definition La (a : accum) : bytes := all_letters (nodes_of a) ++ letters (text a).
Definition Lia (ia : option alist) : bytes := match ia with Some l => letters (alist_src l) | None => [] end.
Definition Lcur (cur : option iline) : bytes := match cur with Some l => Lts (toks l) | None => [] end.
Definition marks : list kind := [Hash; Star; Underscore; Backtick; Tilde; Caret].
(** the substitutions when the text began *)
Variable sb0 : subs.
(** an attribute list waits only before a mark that uses it *)
Definition pend (ia : option alist) (cur : option iline) : Prop :=
  match ia with
  | None => True
  | Some (AText _) => False
  | Some (AList _ _ _) => md = true /\ contains sb0 InlineFormatting = true /\ exists l t r, cur = Some l /\ toks l = t :: r /\ one_of marks t = true /\ (tk t = Backtick -> match r with x :: _ => one_of [SingleQuote; DoubleQuote] x = false | [] => True end)
  end.
Lemma add_text_letters ns x : all_letters (add_text ns x) = all_letters ns ++ letters x.
Proof.
  unfold add_text. destruct x as [|c x]; [now rewrite app_nil_r|]. destruct (rev ns) as [|n r] eqn:R.
  - rewrite all_app. cbn [all_letters flat_map node_letters]. now rewrite app_nil_r.
  - destruct n; try (rewrite all_app; cbn [all_letters flat_map node_letters]; now rewrite app_nil_r).
    assert (N : ns = rev r ++ [NText x0]) by (rewrite <- (rev_involutive ns), R; reflexivity). rewrite N, !all_app. cbn [all_letters flat_map node_letters].
    rewrite letters_app, !app_nil_r, app_assoc. reflexivity.
Qed.
Lemma La_commit a : La (commit a) = La a.
Proof. unfold La, commit. cbn [nodes_of text]. rewrite add_text_letters. cbn. now rewrite app_nil_r. Qed.
Lemma La_node n a : La (push_node n a) = La a ++ node_letters n.
Proof. unfold La, push_node, commit. cbn [nodes_of text]. rewrite all_app, add_text_letters. cbn. rewrite !app_nil_r. reflexivity. Qed.
Lemma La_text x a : La (push_text x a) = La a ++ letters x.
Proof. unfold La, push_text. cbn. now rewrite letters_app, app_assoc. Qed.
Lemma La_unused ia a : La (push_unused ia a) = La a ++ Lia ia.
Proof. unfold push_unused. destruct ia; [apply La_text|cbn; now rewrite app_nil_r]. Qed.
Lemma La_discarded n a : La (push_discarded n a) = La a.
Proof. unfold push_discarded. induction n as [|n IH]; [reflexivity|]. cbn [Nat.iter nat_rect]. rewrite La_node. cbn. rewrite app_nil_r. exact IH. Qed.
Lemma La_newline a ls : La (newline_if_needed a ls) = La a.
Proof. unfold newline_if_needed. destruct ls as [|l ls]; [reflexivity|]. destruct (unconsumed l); [|reflexivity]. rewrite La_node. cbn. apply app_nil_r. Qed.
Lemma all_last ns n r : rev ns = n :: r -> all_letters ns = all_letters (rev r) ++ node_letters n.
Proof. intros R. rewrite <- (rev_involutive ns), R. cbn [rev]. rewrite all_app. cbn. now rewrite app_nil_r. Qed.
Lemma La_join a ls : La (joining_newline a ls) = La a.
Proof.
  unfold joining_newline. destruct ls as [|l ls]; [reflexivity|]. rewrite <- (La_commit a). destruct (rev (nodes_of (commit a))) as [|n r] eqn:R.
  - rewrite La_node. cbn. apply app_nil_r.
  - destruct n; try (rewrite La_node; cbn; apply app_nil_r). destruct a0; try (rewrite La_node; cbn; apply app_nil_r).
    unfold La. rewrite (all_last _ _ _ R). cbn [nodes_of text]. rewrite all_app. cbn. rewrite !app_nil_r. reflexivity.
Qed.
Lemma trimmed_letters f : forall ns, all_letters (rev (trimmed f ns)) = all_letters (rev ns).
Proof.
  induction f as [|f IH]; intros ns; [reflexivity|]. cbn [trimmed]. destruct ns as [|n ns]; [reflexivity|]. destruct n; try reflexivity. rewrite IH. cbn [rev].
  rewrite all_app. cbn. rewrite app_nil_r. destruct ns as [|n ns]; [reflexivity|].
  destruct n; try reflexivity; [destruct ns as [|n ns]; [reflexivity|destruct n; try (cbn [rev]; rewrite ?all_app; cbn; now rewrite ?app_nil_r)]|cbn [rev]; rewrite all_app; cbn; now rewrite app_nil_r].
Qed.
Lemma finish_letters a ia : all_letters (finish a ia) = La a ++ Lia ia.
Proof.
  unfold finish. cbv zeta. rewrite trimmed_letters, rev_involutive. rewrite <- La_unused, <- La_commit. unfold La. cbn. now rewrite app_nil_r.
Qed.

(** ** What one step keeps *)
Variable q0 : list tspec.
Inductive keep (s0 : st) (X : bytes) : act -> Prop :=
| keep_crash : keep s0 X Crash
| keep_stuck : keep s0 X Stuck
| keep_fin s ns ls : ext s0 s -> inv s -> okls ls -> (q0 = [] -> ls = []) -> (fine s -> X = all_letters ns ++ Lls ls) -> keep s0 X (Fin s ns ls)
| keep_go s a ia cur ls : ext s0 s -> inv s -> okc cur ls -> pend ia cur -> (fine s -> X = La a ++ Lia ia ++ Lcur cur ++ Lls ls) -> keep s0 X (Go s a ia cur ls)
| keep_call s q ls k : ext s0 s -> inv s -> okls ls -> Forall quiet q ->
    (forall ns s' ls', ext s s' -> inv s' -> okls ls' -> (q = [] -> ls' = []) -> (fine s' -> Lls ls = all_letters ns ++ Lls ls') -> keep s0 X (k ns s' ls')) -> keep s0 X (Call s q ls k).
Lemma keep_try {A} s0 X (o : outcome A) k : (forall x, o = Ret x -> keep s0 X (k x)) -> keep s0 X (try o k).
Proof. destruct o; cbn; [auto|constructor]. Qed.
Lemma keep_next s0 X s a' p m l ls : ext s0 s -> inv s -> okls (l :: ls) -> toks l = p ++ m -> (fine s -> X = La a' ++ Lts m ++ Lls ls) -> keep s0 X (Go s a' None (Some (adv l m)) ls).
Proof. intros. constructor; auto; [|exact I]. cbn [okc]. now apply okls_suffix with p. Qed.
Lemma keep_stay s0 X s a' l ls : ext s0 s -> inv s -> okls (l :: ls) -> (fine s -> X = La a' ++ Lts (toks l) ++ Lls ls) -> keep s0 X (Go s a' None (Some l) ls).
Proof. intros. constructor; auto. exact I. Qed.

(** ** Index terms *)
Lemma skip_blank_ok f : forall ls, okls ls -> okls (skip_blank f ls) /\ Lls (skip_blank f ls) = Lls ls.
Proof.
  induction f as [|f IH]; intros ls O; cbn [skip_blank]; [now split|]. destruct (whitespaceish _) eqn:W; [|now split]. destruct (consume_tok ls) as [[t m]|] eqn:E; [|now split].
  pose proof (consume_ok _ _ _ E O) as (K & O' & L & _). destruct (IH m O') as [A B]. split; [exact A|]. rewrite B, L.
  replace (LT t) with (@nil ascii); [reflexivity|]. symmetry. assert (current_tok ls = Some t) as Ct.
  { destruct ls as [|l r]; [discriminate|]. cbn in *. destruct (toks l); [discriminate|]. now injection E as <- _. }
  rewrite Ct in W. unfold whitespaceish in W. cbn in W. apply orb_prop in W. destruct W; eapply mute_k; eauto.
Qed.
Lemma skip_ws_ok f : forall ls, okls ls -> okls (skip_ws f ls) /\ Lls (skip_ws f ls) = Lls ls.
Proof.
  induction f as [|f IH]; intros ls O; cbn [skip_ws]; [now split|]. destruct (at_k _ _) eqn:W; [|now split]. destruct (consume_tok ls) as [[t m]|] eqn:E; [|now split].
  pose proof (consume_ok _ _ _ E O) as (K & O' & L & _). destruct (IH m O') as [A B]. split; [exact A|]. rewrite B, L.
  replace (LT t) with (@nil ascii); [reflexivity|]. symmetry. assert (current_tok ls = Some t) as Ct.
  { destruct ls as [|l r]; [discriminate|]. cbn in *. destruct (toks l); [discriminate|]. now injection E as <- _. }
  rewrite Ct in W. eapply mute_k; eauto.
Qed.
Lemma trim_front_ok ts : Forall (okt md) ts -> exists p, ts = p ++ trim_front ts /\ Lts p = [].
Proof.
  induction 1 as [|t ts K F IH]; [now exists []|]. cbn [trim_front]. destruct (is_k Whitespace t) eqn:W; [|now exists []]. destruct IH as (p & E & L).
  exists (t :: p). split; [cbn; now f_equal|]. rewrite Lts_cons, L, (mute_k Whitespace t K W eq_refl). reflexivity.
Qed.
Lemma trim_back_ok ts : Forall (okt md) ts -> exists p, ts = trim_back ts ++ p /\ Lts p = [].
Proof.
  intros F. unfold trim_back. destruct (trim_front_ok (rev ts) (Forall_rev F)) as (p & E & L). exists (rev p). split.
  - rewrite <- rev_app_distr, <- E. now rewrite rev_involutive.
  - clear - L. induction p as [|t p IH]; [reflexivity|]. rewrite Lts_cons in L. apply app_eq_nil in L. destruct L as [A B]. cbn. rewrite Lts_app, IH, Lts_cons, A; auto.
Qed.
Lemma add_term_ok cur : Forall (okt md) cur -> flat_map Lts (add_term cur) = Lts cur /\ forall v, In v (add_term cur) -> seg v cur.
Proof.
  intros F. destruct (trim_back_ok cur F) as (p & E & L). unfold add_term.
  assert (A : Lts cur = Lts (trim_back cur)) by (rewrite E at 1; rewrite Lts_app, L, app_nil_r; reflexivity).
  destruct (trim_back cur) as [|t ts]; [split; [now rewrite A|intros v []]|]. split; [cbn; rewrite A, app_nil_r; reflexivity|]. intros v [<-|[]]. rewrite E. apply seg_app_l.
Qed.
Definition okv (v : list tok) : Prop := Forall (okt md) v /\ (md = true -> calm v).
Lemma split_csv_keeps stop f : forall quoted cur ls ts ls', split_csv f stop quoted cur ls = Some (ts, ls') -> okls ls -> Forall (okt md) cur -> (md = true -> calm (cur ++ flat_map toks ls)) ->
  okls ls' /\ (forall v, In v ts -> okv v) /\ Lts cur ++ Lls ls = flat_map Lts ts ++ Lls ls' /\ match consume_tok ls' with Some (t, _) => satisfies stop t = true | None => True end.
Proof.
  assert (Base : forall cur ls, okls ls -> Forall (okt md) cur -> (md = true -> calm (cur ++ flat_map toks ls)) -> (forall v, In v (add_term cur) -> okv v)).
  { intros cur ls O F C v I. apply (add_term_ok cur F) in I. split; [eapply seg_Forall; eassumption|]. intros M. eapply calm_seg; [|apply C, M]. eapply seg_trans; [exact I|apply seg_app_l]. }
  induction f as [|f IH]; intros quoted cur ls ts ls' E O F C; cbn [split_csv] in E; destruct (consume_tok ls) as [[t m]|] eqn:Ct.
  - destruct (satisfies stop t) eqn:S; [|discriminate]. injection E as <- <-. split; [exact O|]. split; [eapply Base; eassumption|]. split; [now rewrite (proj1 (add_term_ok cur F))|now rewrite Ct].
  - injection E as <- <-. split; [exact O|]. split; [eapply Base; eassumption|]. split; [now rewrite (proj1 (add_term_ok cur F))|now rewrite Ct].
  - destruct (satisfies stop t) eqn:S.
    { injection E as <- <-. split; [exact O|]. split; [eapply Base; eassumption|]. split; [now rewrite (proj1 (add_term_ok cur F))|now rewrite Ct]. }
    pose proof (consume_ok _ _ _ Ct O) as (K & O' & L & Fl). rewrite L. destruct (is_k Comma t && negb quoted) eqn:Cm.
    { destruct (split_csv f stop quoted [] _) as [[ts1 l1]|] eqn:E1; [|discriminate]. injection E as <- <-. destruct (skip_ws_ok (total m) m O') as [O2 L2].
      destruct (IH _ _ _ _ _ E1 O2 (Forall_nil _) (proj2 O2)) as (A1 & A2 & A3 & A4). split; [exact A1|]. split; [|split; [|exact A4]].
      - intros v I. apply in_app_iff in I. destruct I as [I|I]; [|auto]. exact (Base cur ls O F C v I).
      - apply andb_prop in Cm. rewrite (mute_k Comma t K (proj1 Cm) eq_refl), flat_map_app, (proj1 (add_term_ok cur F)), <- app_assoc. f_equal. cbn. rewrite <- A3, L2. reflexivity. }
    destruct (is_k DoubleQuote t) eqn:Dq.
    { destruct (IH _ _ _ _ _ E O' F) as (A1 & A2 & A3 & A4).
      - intros M. apply (calm_drop t cur); [now apply is_k_eq|]. rewrite <- Fl. exact (C M).
      - split; [exact A1|]. split; [exact A2|]. split; [|exact A4]. rewrite (mute_k DoubleQuote t K Dq eq_refl). exact A3. }
    destruct (IH _ _ _ _ _ E O') as (A1 & A2 & A3 & A4).
    + apply Forall_app. split; [exact F|]. now constructor.
    + intros M. rewrite <- app_assoc. cbn. rewrite <- Fl. auto.
    + split; [exact A1|]. split; [exact A2|]. split; [|exact A4]. rewrite <- A3, Lts_app, Lts_cons, <- !app_assoc. reflexivity.
  - injection E as <- <-. split; [exact O|]. split; [eapply Base; eassumption|]. split; [now rewrite (proj1 (add_term_ok cur F))|now rewrite Ct].
Qed.
Lemma keep_terms s0 X ts : forall s k, ext s0 s -> inv s -> (forall v, In v ts -> okv v) ->
  (forall nss s', ext s s' -> inv s' -> (fine s' -> flat_map Lts ts = flat_map (flat_map node_letters) nss) -> keep s0 X (k nss s')) -> keep s0 X (call_terms s ts k).
Proof.
  induction ts as [|v vs IH]; intros s k E I H K; [apply K; auto using ext_refl|]. cbn [call_terms]. destruct (H v (or_introl eq_refl)) as [Hv1 Hv2]. constructor; auto using okls_new.
  intros ns s' ls' E' I' O' Q L. rewrite (Q eq_refl) in L. apply IH; [eapply ext_trans; eassumption|exact I'|intros; apply H; now right|].
  intros nss s2 E2 I2 L2. apply K; [eapply ext_trans; eassumption|exact I2|]. intros Fs. cbn [flat_map]. rewrite (L2 Fs). specialize (L (ext_fine _ _ E2 Fs)).
  rewrite Lls_cons in L. cbn [toks new_line Lls flat_map] in L. rewrite !app_nil_r in L. now rewrite L.
Qed.
Lemma no_letters P x : (forall c, P c = true -> letter c = false) -> letters (firstn (LexerModel.run P x) x) = [].
Proof.
  intros H. induction x as [|c x IH]; [reflexivity|]. cbn [LexerModel.run]. destruct (P c) eqn:Pc; [|reflexivity]. cbn [firstn letters filter]. rewrite (H c Pc). exact IH.
Qed.
Lemma letters_rev x : letters (rev x) = rev (letters x).
Proof. induction x as [|c x IH]; [reflexivity|]. cbn [rev]. rewrite letters_app, IH. cbn. destruct (letter c); [reflexivity|]. now rewrite app_nil_r. Qed.
Lemma space_letter c : mem c (VT :: [" "%char; TAB; LF; FF; CR]) = true -> letter c = false.
Proof. unfold mem. cbn [existsb]. intros H. repeat (apply orb_prop in H; destruct H as [H|H]; [apply Ascii.eqb_eq in H; subst c; reflexivity|]). discriminate. Qed.
Lemma trim_run_letters x : letters (rev (skipn (LexerModel.run (fun c => mem c (VT :: [" "%char; TAB; LF; FF; CR])) (rev x)) (rev x))) = letters x.
Proof.
  set (n := LexerModel.run _ _). rewrite <- (rev_involutive x) at 2. rewrite <- (firstn_skipn n (rev x)) at 2. rewrite rev_app_distr, letters_app, !letters_rev.
  subst n. rewrite (no_letters _ (rev x) space_letter). cbn. now rewrite app_nil_r.
Qed.
Lemma trim_trailing_letters ns : all_letters (trim_trailing ns) = all_letters ns.
Proof.
  unfold trim_trailing. destruct (rev ns) as [|n r] eqn:R; [reflexivity|]. destruct n; try reflexivity; rewrite (all_last _ _ _ R).
  - rewrite all_app. cbn [all_letters flat_map node_letters]. now rewrite trim_run_letters, app_nil_r.
  - cbn. now rewrite app_nil_r.
Qed.
Lemma parens_letters n : letters (repeat ")"%char n) = [].
Proof. induction n; [reflexivity|]. exact IHn. Qed.
(** what is left to parse when a term ends *)
Lemma keep_visible s0 X s e l ls k : ext s0 s -> inv s -> okls (l :: ls) ->
  (forall nd s' ls', ext s s' -> inv s' -> okls ls' -> (fine s' -> Lts (toks l) ++ Lls ls = node_letters nd ++ Lls ls') -> keep s0 X (k nd s' ls')) -> keep s0 X (index_visible s e l ls k).
Proof.
  intros E I O K. unfold index_visible. cbv zeta. destruct (skip_blank_ok (total (restore l ls)) (restore l ls) (okls_restore _ _ O)) as [A B].
  constructor; auto; [repeat constructor|]. intros ns s' ls' E' I' O' _ L. apply K; auto. intros F. rewrite <- Lls_restore, <- B, (L F). cbn [node_letters]. f_equal.
  change (all_letters ns = all_letters (add_parens (e - 2) (trim_trailing ns))). unfold add_parens. now rewrite add_text_letters, trim_trailing_letters, parens_letters, app_nil_r.
Qed.
Lemma cut_okt n t : okt md t -> one_of [OpenParens; CloseParens] t = true -> okt md (cut n t) /\ LT (cut n t) = [] /\ LT t = [].
Proof.
  intros O P. assert (M : one_of mute t = true) by (unfold one_of in *; cbn [existsb] in P; apply orb_prop in P; destruct P as [P|P]; [|apply orb_prop in P; destruct P as [P|P]; [|discriminate]];
    destruct (kind_eqb_spec (tk t) OpenParens) as [->|]; try discriminate; try reflexivity; destruct (kind_eqb_spec (tk t) CloseParens) as [->|]; try discriminate; reflexivity).
  destruct O as ((L1 & L2) & A & B & C). assert (Lx : lexed (cut n t)).
  { split; cbn [cut tx tk]; [intros _; apply letters_firstn_nil; auto|]. intros Q. unfold one_of in P. rewrite Q in P. discriminate. }
  assert (O' : okt md (cut n t)).
  { split; [exact Lx|]. split; [exact A|]. split; [|destruct md].
    - intros [Q _]. cbn [cut tk] in Q. unfold one_of in P. rewrite Q in P. discriminate.
    - destruct C as ((C1 & C2) & C3). split; [|exact C3]. split; [exact C1|]. intros [Q _]. cbn [cut tk] in Q. unfold one_of in P. rewrite Q in P. discriminate.
    - destruct C as (C1 & C2). split; [exact C1|]. intros Q. cbn [cut tk] in Q. unfold one_of in P. rewrite Q in P. discriminate. }
  split; [exact O'|]. split; apply muted; auto. now split.
Qed.
Lemma add_last_letters t ts : LT t = [] -> flat_map Lts (add_last t ts) = flat_map Lts ts.
Proof.
  intros H. unfold add_last. destruct (rev ts) as [|x r] eqn:R.
  - assert (ts = []) as -> by (rewrite <- (rev_involutive ts), R; reflexivity). reflexivity.
  - assert (ts = rev r ++ [x]) as -> by (rewrite <- (rev_involutive ts), R; reflexivity). rewrite !flat_map_app. cbn. rewrite Lts_app, Lts_cons, H. cbn. now rewrite !app_nil_r.
Qed.
Lemma keep_concealed E s0 X s e l ls k : ext s0 s -> inv s -> okls (l :: ls) ->
  (forall nd s' ls', ext s s' -> inv s' -> okls ls' -> (fine s' -> Lts (toks l) ++ Lls ls = node_letters nd ++ Lls ls') -> keep s0 X (k nd s' ls')) -> keep s0 X (index_concealed E s e l ls k).
Proof.
  intros Ex I O K. unfold index_concealed. cbv zeta. pose proof (okls_restore _ _ O) as Or. destruct (split_csv _ _ _ _ _) as [[ts ls']|] eqn:S; [|constructor].
  destruct (split_csv_keeps _ _ _ _ _ _ _ S Or (Forall_nil _) (proj2 Or)) as (A1 & A2 & A3 & A4). cbn [Lts flat_map app] in A3.
  destruct (consume_tok ls') as [[c m]|] eqn:C; [|constructor]. destruct (dbg E && _); [constructor|]. destruct (consume_ok _ _ _ C A1) as (B1 & B2 & B3 & _).
  set (s1 := if 3 <? length ts then report TooManyTerms s else s). assert (E1 : ext s s1) by (unfold s1; destruct (3 <? length ts); [apply ext_report|]; apply ext_refl).
  assert (I1 : inv s1) by (unfold s1; destruct (3 <? length ts); exact I).
  cbn [satisfies] in A4. apply andb_prop in A4. destruct A4 as [A4 _]. assert (P : one_of [OpenParens; CloseParens] c = true) by (apply is_k_eq in A4; unfold one_of; now rewrite A4).
  destruct (cut_okt (length (tx c) - 3) c B1 P) as (D1 & D2 & D3).
  apply keep_terms; [eapply ext_trans; eassumption|exact I1| |].
  - assert (G : forall v, In v (firstn 3 ts) -> okv v) by (intros v V'; apply A2; rewrite <- (firstn_skipn 3 ts); apply in_app_iff; now left).
    destruct (3 <? length (tx c)); [|exact G]. intros v V'. unfold add_last in V'. destruct (rev (firstn 3 ts)) as [|x r] eqn:R; [destruct V'|].
    assert (T : firstn 3 ts = rev r ++ [x]) by (rewrite <- (rev_involutive (firstn 3 ts)), R; reflexivity). rewrite T in G. apply in_app_iff in V'. destruct V' as [V'|[<-|[]]].
    + apply G. apply in_app_iff. now left.
    + destruct (G x) as [G1 G2]; [apply in_app_iff; right; now left|]. split; [apply Forall_app; split; [exact G1|now constructor]|]. intros M. apply calm_snoc; auto.
      apply is_k_eq in A4. unfold one_of. cbn [cut tk]. now rewrite A4.
  - intros nss s' E' I' L. apply K; [eapply ext_trans; eassumption|exact I'|exact B2|]. intros F. specialize (L F). rewrite <- Lls_restore, A3, B3, D3. cbn [node_letters app]. f_equal.
    rewrite <- L. assert (T : (3 <? length ts) = false).
    { destruct (3 <? length ts) eqn:T; [|reflexivity]. exfalso. apply (ext_fine _ _ E') in F. apply (proj2 F). unfold s1. cbn. apply in_app_iff. right. now left. }
    apply Nat.ltb_ge in T. rewrite (firstn_all2 ts T). destruct (3 <? length (tx c)); [|reflexivity]. now rewrite add_last_letters.
Qed.
Lemma keep_shorthand E s0 X s n e t l ls a k : ext s0 s -> inv s -> okls (l :: ls) -> okt md t -> tk t = OpenParens ->
  (forall a' nd s' ls', ext s s' -> inv s' -> okls ls' -> (fine s' -> La a ++ Lts (toks l) ++ Lls ls = La a' ++ node_letters nd ++ Lls ls') -> keep s0 X (k a' nd s' ls')) ->
  keep s0 X (index_shorthand E s n e t l ls a k).
Proof.
  intros Ex I O Kt P K. assert (P' : one_of [OpenParens; CloseParens] t = true) by (unfold one_of; now rewrite P).
  destruct (cut_okt (n - 3) t Kt P') as (D1 & D2 & D3). unfold index_shorthand.
  destruct (n =? 2); [apply keep_visible; auto; intros nd s' ls' E' I' O' L; apply K; auto; intros F; now rewrite (L F)|].
  destruct (e =? 2).
  { apply keep_visible; auto. intros nd s' ls' E' I' O' L. apply K; auto. intros F. rewrite (L F), La_text, (letters_firstn_nil _ (tx t)); [now rewrite app_nil_r|].
    destruct Kt as [[Lx _] _]. apply Lx. unfold one_of. now rewrite P. }
  destruct (_ && _); [apply keep_concealed; auto; intros nd s' ls' E' I' O' L; apply K; auto; intros F; now rewrite (L F)|].
  destruct (_ || _); [|apply keep_concealed; auto; intros nd s' ls' E' I' O' L; apply K; auto; intros F; now rewrite (L F)].
  apply keep_concealed; auto; [apply okls_push; auto; unfold one_of; cbn [cut tk]; now rewrite P|]. intros nd s' ls' E' I' O' L. apply K; auto. intros F. rewrite <- (L F). cbn [toks adv].
  rewrite Lts_cons, D2. reflexivity.
Qed.

(** ** Spans *)
Lemma keep_node E s0 X s a wrap after q l ls Y : ext s0 s -> inv s -> okls (l :: ls) -> Forall quiet q -> Lts (firstn (length q - 1) (toks l)) = [] ->
  (forall ns, node_letters (wrap ns) = Y ++ all_letters ns) -> (forall s', inv s' -> inv (after s')) -> (forall s', pass_of (after s') = pass_of s' /\ errs_of (after s') = errs_of s') ->
  X = La a ++ Y ++ Lts (toks l) ++ Lls ls -> keep s0 X (parse_node E s a wrap after None q l ls).
Proof.
  intros Ex I O Q Fn W Ia Sa HX. unfold parse_node. cbv zeta. destruct (_ <? _); [constructor|]. set (n := length q - 1) in *.
  constructor; auto; [apply okls_restore, okls_suffix with (firstn n (toks l)); [exact O|now rewrite firstn_skipn]|].
  intros ns s' ls' E' I' O' _ L. destruct (Sa (set_ctx CNone s')) as [S1 S2]. constructor; auto; [|exact Logic.I|].
  - eapply ext_same; [eapply ext_trans; [exact Ex|exact E']|exact S1|exact S2].
  - intros F. rewrite La_newline, La_node, W, HX. cbn [Lia Lcur app]. rewrite <- !app_assoc. f_equal. f_equal.
    rewrite <- (L (fine_same s' _ S1 S2 F)), Lls_restore. cbn [toks adv]. rewrite <- (firstn_skipn n (toks l)) at 1. rewrite Lts_app, Fn. reflexivity.
Qed.
Lemma keep_simple s0 X s nd a l ls : ext s0 s -> inv s -> okls (l :: ls) -> node_letters nd = [] -> Lts (firstn 1 (toks l)) = [] -> X = La a ++ Lts (toks l) ++ Lls ls ->
  keep s0 X (push_simple s nd a None l ls).
Proof.
  intros Ex I O N Fn HX. unfold push_simple. cbv zeta. constructor; auto; [|exact Logic.I|].
  - cbn [okc]. apply okls_restore, okls_suffix with (firstn 1 (toks l)); [exact O|]. destruct (toks l); reflexivity.
  - intros _. rewrite La_newline, La_node, N, HX, Lls_restore, app_nil_r. cbn [Lia Lcur app toks adv]. destruct (toks l) as [|t r]; [reflexivity|]. cbn [firstn] in Fn. rewrite Lts_cons in Fn. cbn in Fn.
    rewrite app_nil_r in Fn. cbn [tl]. rewrite Lts_cons, Fn. reflexivity.
Qed.
Lemma keep_tuck s0 X s t a l ls : ext s0 s -> inv s -> okls (l :: ls) -> LT t = letters (tx t) -> X = La a ++ LT t ++ Lts (toks l) ++ Lls ls -> keep s0 X (callout_tuck s t a None l ls).
Proof.
  intros Ex I O T HX. unfold callout_tuck. apply keep_try. intros m D. unfold discard_assert in D. pose proof (okls_toks _ _ O) as F. destruct (toks l) as [|w r] eqn:R; [discriminate|].
  destruct (is_k Whitespace w) eqn:W; [|discriminate]. injection D as <-. inversion F; subst. apply keep_next with [w]; auto. intros _. rewrite La_node. cbn [node_letters].
  rewrite Lts_cons, (mute_k Whitespace w H1 W eq_refl), T, letters_app. cbn. rewrite app_nil_r, <- !app_assoc. reflexivity.
Qed.
Lemma ends_space_split x : ends_space x = true -> x = removelast x ++ [" "%char].
Proof.
  unfold ends_space. destruct (rev x) as [|c r] eqn:R; [discriminate|]. intros C. apply Ascii.eqb_eq in C. subst c.
  assert (x = rev r ++ [" "%char]) as -> by (rewrite <- (rev_involutive x), R; reflexivity). now rewrite removelast_last.
Qed.
Lemma okt_drop t : okt md (drop_byte t).
Proof.
  unfold okt, lexed, passes_nothing, calls_nothing, one_of, drop_byte. cbv zeta. cbn [tk tx]. destruct (tl (tx t)); cbn; repeat split; try discriminate; try reflexivity; try (intros [? ?]; discriminate); destruct md; repeat split; try discriminate; intros [? ?]; discriminate.
Qed.
Lemma keep_emdash E s0 X s t a l ls : ext s0 s -> inv s -> okls (l :: ls) -> okt md t -> tk t = Dashes -> X = La a ++ LT t ++ Lts (toks l) ++ Lls ls ->
  keep s0 X (try (emdash E a t (toks l)) (fun '(a, m) => Go s a None (Some (adv l m)) ls)).
Proof.
  intros Ex I O Kt D HX. assert (T0 : LT t = []) by (apply (mute_k Dashes); [exact Kt|now apply is_k_refl|reflexivity]).
  assert (T1 : letters (tx t) = []) by (destruct Kt as [[Lx _] _]; apply Lx; unfold one_of; now rewrite D). rewrite T0 in HX. cbn [app] in HX.
  apply keep_try. intros [a' m] H. revert H. unfold emdash. cbv zeta.
  assert (Same : forall a1, La a1 = La a -> Ret (a1, toks l) = Ret (a', m) -> keep s0 X (Go s a' None (Some (adv l m)) ls)).
  { intros a1 A H. injection H as <- <-. apply keep_next with []; auto. intros _. now rewrite A. }
  destruct (negb _ && _); [apply Same; rewrite La_node; cbn [node_letters]; destruct (_ =? 2); cbn; apply app_nil_r|].
  destruct (_ && _); [apply Same; rewrite La_text, T1; apply app_nil_r|]. destruct (_ && _) eqn:Ok; [|apply Same; rewrite La_text, T1; apply app_nil_r].
  apply andb_prop in Ok. destruct Ok as [Lo No]. set (p := if match text a with [] => true | _ => false end then _ else _).
  assert (Pa : La (fst p) = La a).
  { unfold p. destruct (text a) as [|c x] eqn:Tx.
    - destruct (rev (nodes_of a)) as [|n r] eqn:R; [reflexivity|]. destruct n; try reflexivity. unfold La. cbn [fst nodes_of text]. rewrite Tx, (all_last _ _ _ R). cbn. now rewrite !app_nil_r.
    - cbn [fst]. unfold La. cbn [nodes_of text]. rewrite Tx. cbn [orb] in Lo. apply ends_space_split in Lo. rewrite Lo at 2. rewrite letters_app. cbn [letters filter]. now rewrite app_nil_r. }
  destruct p as [a1 nl]. cbn [fst] in Pa. pose proof (okls_toks _ _ O) as F. destruct (toks l) as [|n r] eqn:R.
  { intros H. injection H as <- <-. apply keep_next with []; auto. intros _. rewrite La_node, Pa, HX. cbn. now rewrite app_nil_r. }
  destruct (tx n) as [|c x] eqn:Tn; [discriminate|]. intros H. injection H as <- <-.
  change (match Some (" "%char :: []) with Some y => starts_with y (c :: x) | None => true end = true) in No. cbn [starts_with] in No. apply andb_prop in No. destruct No as [C _]. apply Ascii.eqb_eq in C. subst c.
  inversion F as [|? ? Kn Fr]; subst. constructor; auto; [|exact Logic.I|].
  - cbn [okc]. assert (O2 : okls (adv l r :: ls)) by (apply okls_suffix with [n]; auto). apply (okls_push (drop_byte n)) in O2; [exact O2|apply okt_drop|].
    unfold one_of, drop_byte. cbn [tk]. rewrite Tn. cbn [tl]. destruct x; reflexivity.
  - intros _. rewrite La_node, Pa. cbn [node_letters Lia Lcur toks adv app]. rewrite app_nil_r. rewrite !Lts_cons. replace (LT (drop_byte n)) with (LT n); [reflexivity|].
    assert (Pn : is_k PreprocPassthru n = false).
    { destruct (is_k PreprocPassthru n) eqn:P; [|reflexivity]. apply is_k_eq in P. destruct Kn as (_ & _ & _ & Kn). destruct md; [destruct Kn as [_ Kn]; contradiction|]. destruct Kn as [_ Kn]. specialize (Kn P). rewrite Tn in Kn. discriminate. }
    rewrite (LT_plain _ Pn), LT_plain; [unfold drop_byte; cbn [tx]; rewrite Tn; reflexivity|]. unfold is_k, drop_byte. cbn [tk]. rewrite Tn. cbn [tl]. destruct x; reflexivity.
Qed.
Lemma La_recover E a : La (recover_comment E a) = La a.
Proof.
  unfold recover_comment. destruct (comment_bytes E) as [c|]; [|reflexivity]. cbv zeta. destruct (ends_with _ c); [|reflexivity]. rewrite La_node. unfold La. cbn [nodes_of text node_letters].
  rewrite <- app_assoc, <- letters_app, firstn_skipn. reflexivity.
Qed.
Lemma trim_end_letters x : letters (trim_end x) = letters x.
Proof. unfold trim_end. destruct (ends_space x); [apply trim_run_letters|reflexivity]. Qed.

(** ** Attribute lists *)
Definition noref (t : tok) : Prop := is_k AttrRef t = false.
Lemma okt_noref t : okt md t -> noref t.
Proof. intros (_ & A & _). unfold noref, is_k. unfold one_of in A. cbn [existsb] in A. apply orb_false_iff in A. tauto. Qed.
Lemma non_attr_id l : Forall noref l -> non_attr l = l.
Proof. induction 1 as [|t l N F IH]; [reflexivity|]. cbn [non_attr filter]. unfold noref in N. rewrite N. cbn [negb]. f_equal. exact IH. Qed.
Lemma seg_trim_front l : seg (trim_front l) l.
Proof. induction l as [|t l IH]; [apply seg_nil|]. cbn [trim_front]. destruct (is_k _ t); [now apply seg_cons|apply seg_refl]. Qed.
Lemma seg_trim l : seg (trim l) l.
Proof. unfold trim. eapply seg_trans; [|apply seg_trim_front]. rewrite <- (rev_involutive (trim_front l)) at 2. apply seg_rev, seg_trim_front. Qed.
Lemma seg_unquote l : seg (unquote l) l.
Proof. unfold unquote. destruct (_ && _); [|apply seg_refl]. eapply seg_trans; [apply seg_removelast|apply seg_tl]. Qed.
Lemma key_rest_seg l : forall x m, key_rest l = Ret (x, m) -> seg m l.
Proof.
  induction l as [|t l IH]; intros x m E; [discriminate|]. cbn [key_rest] in E. destruct (is_k _ t); [injection E as <- <-; apply seg_cons, seg_refl|].
  destruct (key_rest l) as [[y n]|]; [|discriminate]. injection E as <- <-. apply seg_cons. eapply IH; reflexivity.
Qed.
Lemma key_value_seg l ir : key_value l = Ret ir -> match ir with INamed _ ts => seg ts l | IPositional _ _ => False | _ => True end.
Proof.
  unfold key_value. destruct l as [|t l]; [discriminate|]. destruct (key_rest l) as [[x m]|] eqn:K; [|discriminate]. intros E. injection E as <-. apply key_rest_seg in K.
  cbv zeta. destruct (_ || _); [exact I|]. destruct (bytes_eqb _ _); [exact I|]. destruct (bytes_eqb _ _); [exact I|].
  apply seg_cons. eapply seg_trans; [apply seg_unquote|]. eapply seg_trans; [|exact K]. destruct (at_k _ _); [apply seg_tl|apply seg_refl].
Qed.
Lemma before_symbol_seg l x m : Forall noref l -> before_symbol l = Ret (x, m) -> l = x ++ m.
Proof.
  intros F. revert x m. induction F as [|t l N F IH]; cbn [before_symbol]; intros x m E; [discriminate|]. destruct (one_of _ t); [injection E as <- <-; reflexivity|].
  destruct (before_symbol l) as [[y n]|]; [|discriminate]. unfold noref in N. rewrite N in E. injection E as <- <-. cbn. f_equal. now apply IH.
Qed.
Lemma parse_attr_seg f fm sh : forall l a a', Forall noref l -> parse_attr f fm sh l a = Ret a' -> forall v, In v (values_of a') -> In v (values_of a) \/ seg v l.
Proof.
  revert sh. induction f as [|f IH]; [discriminate|]. intros sh l a a' Fl E v Hv. cbn [parse_attr] in E. pose proof (seg_trim l) as T. destruct (trim l) as [|t0 l0].
  { injection E as <-. rewrite values_positional in Hv. left. unfold values_of. cbn in Hv. exact Hv. }
  assert (P : forall ts, seg ts l -> In v (values_of (push_positional (Some ts) a)) -> In v (values_of a) \/ seg v l).
  { intros ts S H. rewrite values_positional in H. apply in_app_iff in H. cbn in H. unfold values_of. rewrite in_app_iff. destruct H as [H|[<-|H]]; auto. }
  destruct (item_ir sh (t0 :: l0)) as [ir|] eqn:I; [|discriminate].
  assert (Q : match ir with INamed _ ts | IPositional ts _ => seg ts (t0 :: l0) | _ => True end).
  { unfold item_ir in I. destruct (decide _ _ _ _ _) as [[[| |]|] saw]; try (injection I as <-; cbn; try exact Logic.I; apply seg_unquote).
    apply key_value_seg in I. destruct ir; tauto. }
  destruct ir as [ts ws|k ts|gs|gs|ts|ts].
  - assert (S : seg ts l) by (eapply seg_trans; eassumption).
    destruct fm.
    + destruct (roles a), ts; try discriminate E; injection E as <-; left; exact Hv.
    + destruct (ws && sh); [|injection E as <-; eauto].
      destruct (before_symbol ts) as [[p m]|] eqn:B; [|discriminate]. apply before_symbol_seg in B; [|eapply seg_Forall; eassumption].
      assert (Sp : seg p l) by (eapply seg_trans; [|exact S]; rewrite B; apply seg_app_l). assert (Sm : seg m l) by (eapply seg_trans; [|exact S]; rewrite B; apply seg_app_r).
      destruct p as [|p0 p]; [injection E as <-; left; exact Hv|]. destruct (IH true _ _ _ (seg_Forall _ _ _ Sm Fl) E v Hv) as [H|H].
      * apply (P (p0 :: p)); assumption.
      * right. eapply seg_trans; eassumption.
  - assert (S : seg ts l) by (eapply seg_trans; eassumption).
    destruct fm; injection E as <-; [left; exact Hv|]. unfold values_of in *. cbn in Hv. rewrite flat_map_app, map_app in Hv. cbn in Hv.
    rewrite app_nil_r, !in_app_iff in Hv. rewrite in_app_iff. cbn in Hv. destruct Hv as [H|[H|[<-|[]]]]; auto.
  - destruct fm; [destruct gs; [discriminate|]|]; injection E as <-; left; exact Hv.
  - destruct fm; [destruct gs; [discriminate|]|]; injection E as <-; left; exact Hv.
  - apply shorthands_values in E. rewrite E in Hv. now left.
  - destruct fm; destruct ts; try discriminate E; [injection E as <-; left; exact Hv..|]. destruct (aid a); injection E as <-; left; exact Hv.
Qed.
Lemma parse_items_seg fm sh : forall items a a', (forall i, In i items -> Forall noref i) -> parse_items fm sh items a = Ret a' ->
  forall v, In v (values_of a') -> In v (values_of a) \/ exists i, In i items /\ seg v i.
Proof.
  assert (One : forall i a a', Forall noref i -> parse_item fm sh i a = Ret a' -> forall v, In v (values_of a') -> In v (values_of a) \/ seg v i).
  { intros i a a' F E v Hv. unfold parse_item in E. rewrite (non_attr_id i F) in E. exact (parse_attr_seg _ _ _ _ _ _ F E v Hv). }
  induction items as [|i [|j items] IH]; intros a a' N E v Hv.
  - injection E as <-. now left.
  - cbn in E. destruct (_ || _); [|injection E as <-; now left]. destruct (One _ _ _ (N i (or_introl eq_refl)) E v Hv) as [H|H]; [now left|right]. exists i. cbn. auto.
  - change (match parse_item fm sh i a with Ret a => parse_items fm sh (j :: items) a | Panic => Panic end = Ret a') in E.
    destruct (parse_item fm sh i a) as [a1|] eqn:E1; [|discriminate]. destruct (IH a1 a' (fun x H => N x (or_intror H)) E v Hv) as [H|(x & H & S)]; [|right; exists x; cbn in *; auto].
    destruct (One _ _ _ (N i (or_introl eq_refl)) E1 v H) as [H'|H']; [now left|right; exists i; cbn; auto].
Qed.
Lemma take_items_seg ds : forall l items rest, take_items ds l = Ret (items, rest) ->
  (forall i, In i items -> seg i l) /\ exists p, l = p ++ rest /\ length p = list_sum ds + length ds /\ (p = [] \/ exists p' c, p = p' ++ [c] /\ is_k Comma c = true).
Proof.
  induction ds as [|d ds IH]; intros l items rest E; cbn in E.
  - injection E as <- <-. split; [intros i []|]. exists []. auto.
  - pose proof (firstn_skipn d l) as S. destruct (skipn d l) as [|t m] eqn:Sk; [discriminate|]. destruct (is_k Comma t) eqn:Ct; [|discriminate].
    assert (Ld : length (firstn d l) = d) by (apply firstn_length_le; pose proof (skipn_length d l) as Ls; rewrite Sk in Ls; cbn in Ls; lia).
    destruct (take_items ds m) as [[is r]|] eqn:E'; [|discriminate]. injection E as <- <-. destruct (IH _ _ _ E') as [A (p & B & C & D)].
    assert (C' : length (t :: p) = 1 + (list_sum ds + length ds)) by (cbn; now rewrite C). split.
    + intros i [<-|H]; [apply seg_firstn|]. rewrite <- S. eapply seg_trans; [apply A, H|]. change (t :: m) with ([t] ++ m). rewrite app_assoc. apply seg_app_r.
    + exists (firstn d l ++ t :: p). split; [rewrite <- app_assoc; cbn; now rewrite <- B|]. split; [rewrite app_length, C', Ld; unfold list_sum; cbn; lia|]. right. destruct D as [->|(p' & c & -> & D)].
      * exists (firstn d l), t. auto.
      * exists (firstn d l ++ t :: p'), c. split; [now rewrite <- app_assoc|exact D].
Qed.
Lemma take_open_split l : forall i rest, take_open l = Ret (i, rest) -> l = i ++ rest.
Proof.
  induction l as [|t l IH]; intros i rest E; cbn in E; [discriminate|]. destruct (_ && _).
  - injection E as <- <-. reflexivity.
  - destruct (take_open l) as [[x m]|]; [|discriminate]. injection E as <- <-. cbn. f_equal. now apply IH.
Qed.
Lemma split_items_seg l items rest : split_items false l = Ret (items, rest) -> (forall i, In i items -> seg i l) /\ exists p, l = p ++ rest.
Proof.
  unfold split_items. destruct (take_items _ l) as [[is m]|] eqn:E; [|discriminate]. apply take_items_seg in E. destruct E as [A (p & B & _)].
  unfold take_last. destruct m as [|t m]; [discriminate|].
  assert (F : forall i r, t :: m = i ++ r -> Ret (is ++ [i], r) = Ret (items, rest) -> (forall i, In i items -> seg i l) /\ exists p, l = p ++ rest).
  { intros i r S E. injection E as <- <-. rewrite S in B. split; [|exists (p ++ i); now rewrite <- app_assoc]. intros x H. apply in_app_iff in H. destruct H as [H|[<-|[]]]; [auto|]. exists p, r. exact B. }
  destruct (current_is _ _); [apply F; reflexivity|]. destruct (take_open (t :: m)) as [[i r]|] eqn:E; [|discriminate]. apply take_open_split in E. now apply F.
Qed.
Lemma parse_attr_list_seg fm sh l a m : Forall noref l -> parse_attr_list false fm sh l = Ret (a, m) -> (forall v, In v (values_of a) -> seg v l) /\ exists p c, l = p ++ c :: m /\ is_k CloseBracket c = true.
Proof.
  intros Fl. unfold parse_attr_list. destruct l as [|t r]; [discriminate|]. destruct (is_k CloseBracket t) eqn:C.
  - intros E. injection E as <- <-. split; [intros v []|]. exists [], t. auto.
  - destruct (split_items false (t :: r)) as [[items rest]|] eqn:S; [|discriminate]. apply split_items_seg in S. destruct S as [A (p & B)].
    destruct (parse_items fm sh items no_attrs) as [a'|] eqn:P; [|discriminate]. destruct rest as [|c rest]; [discriminate|].
    destruct (is_k CloseBracket c) eqn:Cc; [|discriminate]. intros E. injection E as <- <-. split; [|exists p, c; auto].
    intros v H. destruct (parse_items_seg fm sh items no_attrs a' (fun i Hi => seg_Forall _ _ _ (A i Hi) Fl) P v H) as [[]|(i & Hi & Si)]. eapply seg_trans; eauto.
Qed.
(** where a list before formatted text ends *)
Lemma pop_to_sum k ds : forall n, let (ds', n') := pop_to k ds n in list_sum ds' + length ds' + n' = list_sum ds + length ds + n.
Proof.
  induction ds as [|d ds IH]; intros n; cbn [pop_to]; [reflexivity|]. destruct (k <? _); [|reflexivity]. specialize (IH (n + d + 1)). destruct (pop_to k ds (n + d + 1)) as [ds' n']. unfold list_sum in *. cbn [fold_right length]. lia.
Qed.
Fixpoint to_close (l : list tok) : nat := match l with t :: r => if is_k CloseBracket t then 0 else S (to_close r) | [] => 0 end.
Lemma scan_sum l : forall ds n dbl sgl, let r := scan_delims l ds n dbl sgl in list_sum r + length r <= list_sum ds + length ds + n + to_close l.
Proof.
  induction l as [|t l IH]; intros ds n dbl sgl; cbn [scan_delims to_close]; cbv zeta; [lia|].
  assert (Cb : forall k, is_k k t = true -> kind_eqb k CloseBracket = false -> is_k CloseBracket t = false).
  { intros k K N. apply is_k_eq in K. unfold is_k. now rewrite K. }
  destruct (is_k DoubleQuote t) eqn:Q1.
  { rewrite (Cb _ Q1 eq_refl). destruct dbl as [k|]; [|specialize (IH ds (S n) (Some (length ds)) sgl); cbv zeta in IH; lia].
    pose proof (pop_to_sum k ds (S n)) as P. destruct (pop_to k ds (S n)) as [ds' n']. specialize (IH ds' n' None sgl). cbv zeta in IH. lia. }
  destruct (is_k SingleQuote t) eqn:Q2.
  { rewrite (Cb _ Q2 eq_refl). destruct sgl as [k|]; [|specialize (IH ds (S n) dbl (Some (length ds))); cbv zeta in IH; lia].
    pose proof (pop_to_sum k ds (S n)) as P. destruct (pop_to k ds (S n)) as [ds' n']. specialize (IH ds' n' dbl None). cbv zeta in IH. lia. }
  destruct (is_k Comma t) eqn:Q3.
  { rewrite (Cb _ Q3 eq_refl). specialize (IH (n :: ds) 0 dbl sgl). cbv zeta in IH. unfold list_sum in *. cbn [fold_right length] in IH. lia. }
  destruct (is_k CloseBracket t); [lia|]. specialize (IH ds (S n) dbl sgl). cbv zeta in IH. lia.
Qed.
Lemma to_close_removelast l : to_close (removelast l) <= to_close l.
Proof.
  induction l as [|t [|u l] IH]; [cbn; lia|cbn; lia|]. change (removelast (t :: u :: l)) with (t :: removelast (u :: l)).
  change (to_close (t :: u :: l)) with (if is_k CloseBracket t then 0 else S (to_close (u :: l))). cbn [to_close]. cbn [to_close] in IH. destruct (is_k CloseBracket t); lia.
Qed.
Lemma list_sum_rev l : list_sum (rev l) = list_sum l.
Proof. induction l as [|n l IH]; [reflexivity|]. cbn [rev]. rewrite list_sum_app, IH. unfold list_sum. cbn [fold_right]. lia. Qed.
Lemma first_from_app k p : forall prev l, Forall (fun t => is_k k t = false) p -> first_nonescaped_from prev k (p ++ l) =
  option_map (Nat.add (length p)) (first_nonescaped_from (match rev p with t :: _ => Some t | [] => prev end) k l).
Proof.
  induction p as [|t p IH]; intros prev l F.
  - cbn. destruct (first_nonescaped_from prev k l); reflexivity.
  - inversion F as [|? ? N F']; subst. cbn [app first_nonescaped_from]. rewrite N. cbn [andb]. rewrite (IH (Some t) l F').
    assert (R : match rev (t :: p) with t0 :: _ => Some t0 | [] => prev end = match rev p with t0 :: _ => Some t0 | [] => Some t end) by (cbn [rev]; destruct (rev p); reflexivity).
    rewrite R. destruct (first_nonescaped_from _ k l); reflexivity.
Qed.
Lemma take_open_first l : forall prev i rest, match l with t :: _ => is_k CloseBracket t && negb (at_k Backslash prev) | [] => false end = false -> take_open l = Ret (i, rest) ->
  first_nonescaped_from prev CloseBracket l = Some (length i).
Proof.
  induction l as [|t l IH]; intros prev i rest N E; [discriminate|]. cbn [take_open] in E. cbn [first_nonescaped_from]. rewrite N.
  destruct (at_k CloseBracket (hd_error l) && negb (is_k Backslash t)) eqn:C.
  - injection E as <- <-. destruct l as [|u l]; [discriminate|]. cbn in C. cbn [first_nonescaped_from at_k]. rewrite C. reflexivity.
  - destruct (take_open l) as [[x m]|] eqn:T; [|discriminate]. injection E as <- <-. rewrite (IH (Some t) x m); [reflexivity| |reflexivity].
    destruct l as [|u l]; [reflexivity|]. exact C.
Qed.
Lemma to_close_app p rest n : length p <= n -> n <= to_close (p ++ rest) -> Forall (fun t => is_k CloseBracket t = false) p.
Proof.
  revert n. induction p as [|t p IH]; intros n L H; [constructor|]. cbn [app to_close length] in *. destruct (is_k CloseBracket t) eqn:C; [lia|]. constructor; [exact C|]. apply (IH (n - 1)); lia.
Qed.
Lemma first_index_seq q l : forall i, index_of_seq q l = Some i -> starts_with_seq q (skipn i l) = true.
Proof.
  induction l as [|t l IH]; intros i E; [discriminate|]. cbn [index_of_seq] in E. destruct (starts_with_seq q (t :: l)) eqn:S; [injection E as <-; exact S|].
  destruct (index_of_seq q l) as [j|]; [|discriminate]. injection E as <-. cbn [skipn]. now apply IH.
Qed.
Lemma formatted_ends l a m : continues_formatted_text_attr_list l = true -> formatted_attr_list l = Ret (a, m) -> match m with t :: _ => one_of marks t = true | [] => False end.
Proof.
  unfold continues_formatted_text_attr_list, formatted_attr_list, parse_attr_list. destruct l as [|t r]; [discriminate|]. destruct (negb (one_of [OpenBracket; CloseBracket] t)) eqn:N; [|discriminate].
  intros Co. apply negb_true_iff in N. unfold one_of in N. cbn [existsb] in N. apply orb_false_iff in N. destruct N as [_ N]. rewrite orb_false_r in N. assert (Nt : is_k CloseBracket t = false) by exact N. rewrite Nt.
  set (l := t :: r) in *. destruct (index_of_seq _ l) as [i|] eqn:Ix; [|discriminate]. apply andb_prop in Co. destruct Co as [_ Co].
  destruct (first_nonescaped CloseBracket l) as [j|] eqn:Fj; [|discriminate]. apply Nat.eqb_eq in Co. subst j.
  destruct (split_items false l) as [[items rest]|] eqn:S; [|discriminate]. destruct (parse_items _ _ items no_attrs) as [a'|]; [|discriminate]. destruct rest as [|c rest]; [discriminate|].
  destruct (is_k CloseBracket c) eqn:Cc; [|discriminate]. intros E. injection E as <- <-.
  assert (P : exists p, l = p ++ c :: rest /\ first_nonescaped CloseBracket l = Some (length p)).
  { unfold split_items in S. destruct (take_items (find_delimiters l) l) as [[is rem]|] eqn:Ti; [|discriminate]. apply take_items_seg in Ti. destruct Ti as [_ (p & B & Lp & D)].
    assert (Np : Forall (fun t => is_k CloseBracket t = false) p).
    { apply (to_close_app p rem (length p)); [lia|]. rewrite <- B, Lp. unfold find_delimiters. rewrite list_sum_rev, rev_length.
      pose proof (scan_sum (removelast l) [] 0 None None) as Sc. cbv zeta in Sc. pose proof (to_close_removelast l). revert Sc. generalize (scan_delims (removelast l) [] 0 None None). intros sd Sc. unfold list_sum in *. cbn [fold_right length] in Sc. lia. }
    unfold first_nonescaped. rewrite B, (first_from_app CloseBracket p None rem Np). set (prev := match rev p with t0 :: _ => Some t0 | [] => None end).
    assert (Pb : at_k Backslash prev = false).
    { unfold prev. destruct D as [->|(p' & x & -> & X)]; [reflexivity|]. rewrite rev_app_distr. cbn. apply is_k_eq in X. unfold is_k. now rewrite X. }
    unfold take_last in S. destruct rem as [|u rem]; [discriminate|]. destruct (current_is CloseBracket (u :: rem)) eqn:Cu.
    - injection S as _ -> ->. exists p. split; [reflexivity|]. cbn [first_nonescaped_from]. rewrite Cc, Pb. cbn. f_equal. lia.
    - destruct (take_open (u :: rem)) as [[x y]|] eqn:To; [|discriminate]. injection S as _ ->. pose proof (take_open_split _ _ _ To) as Sp.
      assert (Hu : is_k CloseBracket u && negb (at_k Backslash prev) = false) by (change (is_k CloseBracket u = false) in Cu; now rewrite Cu).
      rewrite (take_open_first (u :: rem) prev _ _ Hu To). exists (p ++ x). rewrite Sp, app_length, <- app_assoc. split; reflexivity. }
  destruct P as (p & Pl & Pf). rewrite Fj in Pf. injection Pf as ->. apply first_index_seq in Ix. rewrite Pl, skipn_app, skipn_all, Nat.sub_diag in Ix. cbn [app skipn starts_with_seq satisfies] in Ix.
  apply andb_prop in Ix. destruct Ix as [_ Ix]. destruct rest as [|w rest]; [discriminate|]. apply andb_prop in Ix. exact (proj1 Ix).
Qed.

(** ** Text without passthroughs *)
Section macros.
Definition with_macros : Prop := md = true.
Hypothesis Md : with_macros.
Lemma LT_tx t : okt md t -> LT t = letters (tx t).
Proof. intros (_ & _ & _ & K). rewrite (Md : md = true) in K. apply LT_plain. destruct (is_k PreprocPassthru t) eqn:P; [|reflexivity]. apply is_k_eq in P. tauto. Qed.
Lemma Lts_text ts : Forall (okt md) ts -> Lts ts = letters (text_of ts).
Proof. induction 1 as [|t ts K F IH]; [reflexivity|]. rewrite Lts_cons, IH, (LT_tx t K). cbn [text_of flat_map]. now rewrite letters_app. Qed.
Lemma string_until_ok k l : Forall (okt md) l -> forall x m, string_until k l = (x, m) -> exists p, l = p ++ m /\ letters x = Lts p.
Proof.
  induction 1 as [|t l K F IH]; intros x m E; cbn [string_until] in E; [injection E as <- <-; now exists []|]. destruct (is_k k t); [injection E as <- <-; now exists []|].
  destruct (string_until k l) as [y n]. destruct (IH _ _ eq_refl) as (p & P & L). exists (t :: p). rewrite Lts_cons.
  destruct (one_of [AttrRef; Backslash] t) eqn:O; injection E as <- <-; (split; [cbn; now f_equal|]); [|now rewrite letters_app, L, LT_tx].
  unfold one_of in O. cbn [existsb] in O. rewrite orb_false_r in O. apply orb_prop in O. destruct O as [O|O].
  - pose proof (okt_noref t K) as N. unfold noref, is_k in N. congruence.
  - rewrite (mute_k Backslash t K O eq_refl). exact L.
Qed.
Lemma consume_until_ok k l x m : Forall (okt md) l -> consume_until k l = Ret (x, m) -> exists p, l = p ++ m /\ letters x = Lts p.
Proof. intros F. unfold consume_until. destruct l as [|t l]; [discriminate|]. intros E. destruct (string_until k (t :: l)) as [y n] eqn:S. injection E as <- <-. eapply string_until_ok; eassumption. Qed.
Lemma discard_ok k l m : Forall (okt md) l -> existsb (kind_eqb k) mute = true -> discard_assert k l = Ret m -> exists p, l = p ++ m /\ Lts p = [].
Proof.
  intros F M. unfold discard_assert. destruct l as [|t l]; [discriminate|]. destruct (is_k k t) eqn:K; [|discriminate]. intros E. injection E as <-. inversion F; subst.
  exists [t]. split; [reflexivity|]. rewrite Lts_cons, (mute_k k t H1 K M). reflexivity.
Qed.
Lemma Forall_suffix {A} (P : A -> Prop) p m : Forall P (p ++ m) -> Forall P m.
Proof. intros F. apply Forall_app in F. tauto. Qed.
Lemma Forall_prefix {A} (P : A -> Prop) p m : Forall P (p ++ m) -> Forall P p.
Proof. intros F. apply Forall_app in F. tauto. Qed.
Lemma macro_target_ok l x m : Forall (okt md) l -> macro_target l = Ret (x, m) -> exists p, l = p ++ m /\ letters x = Lts p.
Proof.
  intros F. unfold macro_target. destruct (consume_until OpenBracket l) as [[y n]|] eqn:C; [|discriminate]. destruct (discard_assert OpenBracket n) eqn:D; [|discriminate].
  intros E. injection E as <- <-. destruct (consume_until_ok _ _ _ _ F C) as (p & P & L). rewrite P in F. destruct (discard_ok OpenBracket _ _ (Forall_suffix _ _ _ F) eq_refl D) as (p' & P' & L').
  exists (p ++ p'). split; [now rewrite <- app_assoc, <- P', <- P|]. now rewrite Lts_app, L', app_nil_r.
Qed.
Lemma tl_open l : Forall (okt md) l -> current_is OpenBracket l = true -> exists p, l = p ++ tl l /\ Lts p = [].
Proof. intros F C. destruct l as [|t l]; [discriminate|]. inversion F; subst. exists [t]. split; [reflexivity|]. rewrite Lts_cons, (mute_k OpenBracket t H1 C eq_refl). reflexivity. Qed.
Lemma optional_target_ok l x m : Forall (okt md) l -> optional_target l = Ret (x, m) -> exists p, l = p ++ m /\ opt_letters x = Lts p.
Proof.
  intros F. unfold optional_target. destruct (current_is OpenBracket l) eqn:C.
  - intros E. injection E as <- <-. destruct (tl_open l F C) as (p & P & L). exists p. split; [exact P|now rewrite L].
  - destruct (macro_target l) as [[y n]|] eqn:M; [|discriminate]. intros E. injection E as <- <-. exact (macro_target_ok _ _ _ F M).
Qed.
Lemma kbd_keys_ok l : Forall (okt md) l -> forall last x m, kbd_keys last l = (x, m) -> exists p, l = p ++ m /\ letters x = Lts p.
Proof.
  induction 1 as [|t l K F IH]; intros last x m E; cbn [kbd_keys] in E; [injection E as <- <-; now exists []|].
  destruct (is_k AttrRef t || is_some last && is_k Backslash t) eqn:O.
  - destruct (IH _ _ _ E) as (p & P & L). exists (t :: p). split; [cbn; now f_equal|]. apply orb_prop in O. destruct O as [O|O]; [pose proof (okt_noref t K) as N; unfold noref in N; congruence|].
    apply andb_prop in O. rewrite Lts_cons, (mute_k Backslash t K (proj2 O) eq_refl). exact L.
  - destruct (is_k CloseBracket t && _); [injection E as <- <-; now exists []|]. destruct (kbd_keys (Some (tk t)) l) as [y n] eqn:Y. injection E as <- <-. destruct (IH _ _ _ Y) as (p & P & L).
    exists (t :: p). split; [cbn; now f_equal|]. now rewrite letters_app, Lts_cons, L, LT_tx.
Qed.
Definition is_list (al : alist) : Prop := match al with AList _ _ _ => True | AText _ => False end.
Lemma keep_value s0 X s ts k : ext s0 s -> inv s -> okv ts -> (forall ns s', ext s s' -> inv s' -> keep s0 X (k ns s')) -> keep s0 X (call_value s ts k).
Proof.
  intros Ex I [O1 O2] K. unfold call_value. assert (C : keep s0 X (Call s [] [new_line ts] (fun ns s _ => k ns s))) by (constructor; auto using okls_new).
  destruct ts as [|t [|u ts]]; [apply K; auto using ext_refl|destruct (is_k Word t); [apply K; auto using ext_refl|exact C]|exact C].
Qed.
Lemma keep_values s0 X vs : forall s k, ext s0 s -> inv s -> (forall v, In v vs -> okv v) -> (forall nss s', ext s s' -> inv s' -> keep s0 X (k nss s')) -> keep s0 X (call_values s vs k).
Proof.
  induction vs as [|v vs IH]; intros s k Ex I H K; [apply K; auto using ext_refl|]. cbn [call_values]. apply keep_value; auto; [apply H; now left|]. intros ns s' E' I'.
  apply IH; [eapply ext_trans; eassumption|exact I'|intros; apply H; now right|]. intros nss s2 E2 I2. apply K; [eapply ext_trans; eassumption|exact I2].
Qed.
Lemma consumed_split r p m : r = p ++ m -> consumed r m = p.
Proof. intros ->. unfold consumed. rewrite app_length. replace (length p + length m - length m) with (length p) by lia. now rewrite firstn_app, firstn_all, Nat.sub_diag, app_nil_r. Qed.
Lemma seg_okv v l : seg v l -> okv l -> okv v.
Proof. intros S [A B]. split; [eapply seg_Forall; eassumption|]. intros M. eapply calm_seg; eauto. Qed.
Lemma keep_with_attrs s0 X s r k : ext s0 s -> inv s -> okv r ->
  (forall al a s' p m, ext s s' -> inv s' -> r = p ++ m -> alist_letters al = Lts p -> is_list al -> letters (alist_src al) = Lts p -> keep s0 X (k al a s' m)) -> keep s0 X (with_attrs s r k).
Proof.
  intros Ex I O K. unfold with_attrs. apply keep_try. intros [a m] E. apply parse_attr_list_seg in E; [|eapply Forall_impl; [|exact (proj1 O)]; apply okt_noref]. destruct E as [A (p & c & B & _)].
  apply keep_values; auto; [intros v Hv; eapply seg_okv; [apply A, Hv|exact O]|]. intros nss s' E' I'.
  assert (B' : r = (p ++ [c]) ++ m) by now rewrite <- app_assoc. assert (L : letters ($"[" ++ text_of (consumed r m)) = Lts (p ++ [c])).
  { rewrite (consumed_split _ _ _ B'), letters_app, <- Lts_text; [reflexivity|]. destruct O as [O _]. rewrite B' in O. now apply Forall_app in O. }
  eapply K; try eassumption; exact Logic.I.
Qed.
Lemma blank_window_letters ns : all_letters (fst (blank_window ns)) = all_letters ns.
Proof.
  unfold blank_window. destruct (rev ns) as [|n r] eqn:R; [reflexivity|]. destruct n; try reflexivity. destruct (rev x) as [|c y] eqn:Rx; [reflexivity|]. destruct (Ascii.eqb c "^"%char) eqn:C; [|reflexivity].
  apply Ascii.eqb_eq in C. subst c. cbn [fst]. rewrite all_app, (all_last _ _ _ R). cbn [all_letters flat_map node_letters]. rewrite app_nil_r. f_equal.
  rewrite <- (rev_involutive x), Rx. cbn [rev]. rewrite letters_app. cbn. now rewrite app_nil_r.
Qed.
Lemma unquote_letters ts : Forall (okt md) ts -> Lts (unquote ts) = Lts ts.
Proof.
  intros F. unfold unquote. destruct (_ && _) eqn:C; [|reflexivity]. apply andb_prop in C. destruct C as [Len C].
  destruct ts as [|t ts]; [discriminate|]. destruct ts as [|u ts] using rev_ind; [discriminate|]. clear IHts. cbn [tl hd_error at_k] in *. rewrite removelast_last.
  unfold last_token in C. rewrite app_comm_cons, rev_app_distr in C. cbn in C. inversion F as [|? ? Kt Fu]; subst. apply Forall_app in Fu. destruct Fu as [_ Fu]. inversion Fu as [|? ? Ku _]; subst.
  rewrite Lts_cons, Lts_app, Lts_cons. apply orb_prop in C. destruct C as [C|C]; apply andb_prop in C; destruct C as [C1 C2]; rewrite (mute_k _ _ Kt C1 eq_refl), (mute_k _ _ Ku C2 eq_refl); cbn; now rewrite app_nil_r.
Qed.
Lemma keep_link_attrs E s0 X s r k : dbg E = true -> ext s0 s -> inv s -> okv r ->
  (forall al b s' p m, ext s s' -> inv s' -> r = p ++ m -> (fine s' -> alist_letters al = Lts p) -> keep s0 X (k al b s' m)) -> keep s0 X (with_link_attrs E s r k).
Proof.
  intros Db Ex I O K. unfold with_link_attrs. cbv zeta. destruct r as [|c m]; [constructor|]. set (r := c :: m) in *. destruct (link_scan _ _ _ _ _) as [j|].
  - destruct (is_k CloseBracket c) eqn:C.
    + apply (K _ _ _ [c]); auto using ext_refl. intros _. destruct O as [O _]. inversion O; subst. rewrite Lts_cons, (mute_k CloseBracket c H1 C eq_refl). reflexivity.
    + rewrite non_attr_id by (eapply Forall_impl; [apply okt_noref|]; eapply seg_Forall; [apply seg_firstn|exact (proj1 O)]).
      assert (Sv : okv (unquote (firstn j r))) by (eapply seg_okv; [|exact O]; eapply seg_trans; [apply seg_unquote|apply seg_firstn]).
      constructor; [exact Ex|exact I|apply okls_new; apply Sv|constructor|]. intros ns s' ls' E' I' O' Q L. rewrite (Q eq_refl) in L. destruct (skipn j r) as [|t rest] eqn:Sk; [constructor|].
      rewrite Db. cbn [andb]. destruct (is_k CloseBracket t) eqn:Ct; [|constructor]. cbn [negb].
      assert (R : r = (firstn j r ++ [t]) ++ rest) by (rewrite <- app_assoc; cbn; rewrite <- Sk; symmetry; apply firstn_skipn).
      assert (Kt : okt md t) by (eapply (proj1 (Forall_forall _ _)); [exact (proj1 O)|]; rewrite R; apply in_app_iff; left; apply in_app_iff; right; now left).
      assert (G : forall ns' b, all_letters ns' = all_letters ns -> keep s0 X (k (AText ns') b (set_ctx CNone s') rest)).
      { intros ns' b N. apply (K _ _ _ (firstn j r ++ [t])); auto. intros F. specialize (L F). rewrite Lls_cons in L. cbn [toks new_line Lls flat_map] in L. rewrite !app_nil_r in L.
        cbn [alist_letters]. change (all_letters ns' = Lts (firstn j r ++ [t])). rewrite N, <- L, unquote_letters; [|eapply seg_Forall; [apply seg_firstn|exact (proj1 O)]].
        now rewrite Lts_app, Lts_cons, (mute_k CloseBracket t Kt Ct eq_refl), app_nil_r. }
      destruct (existsb _ r); [|now apply G]. pose proof (blank_window_letters ns) as B. destruct (blank_window ns) as [ns' b]. now apply G.
  - apply keep_with_attrs; auto. intros al a s' p m' E' I' R L _ _. eapply K; eauto.
Qed.
Lemma tx_letters k t : okt md t -> is_k k t = true -> existsb (kind_eqb k) mute = true -> letters (tx t) = [].
Proof. intros O K M. rewrite <- (LT_tx t O). eapply mute_k; eassumption. Qed.

(** ** Macros *)
Lemma macro_next s0 X s' t a l ls p m nd : ext s0 s' -> inv s' -> okls (l :: ls) -> toks l = p ++ m -> X = La a ++ letters (tx t) ++ Lts (toks l) ++ Lls ls -> (fine s' -> node_letters nd = letters (tx t) ++ Lts p) ->
  keep s0 X (Go s' (push_node nd (commit a)) None (Some (adv l m)) ls).
Proof. intros Ex I O P HX N. apply keep_next with p; auto. intros F. rewrite La_node, La_commit, (N F), HX, P, Lts_app, <- !app_assoc. reflexivity. Qed.
Lemma okls_okv l ls p m : okls (l :: ls) -> toks l = p ++ m -> okv m.
Proof. intros O T. pose proof (okls_suffix l ls p m O T) as [A B]. inversion A as [|? ? [C _]]; subst. split; [exact C|]. intros M. eapply calm_seg; [|exact (B M)]. cbn. apply seg_app_l. Qed.
Lemma named_letters t x y : bytes_eqb (tx t) x = true -> letters x = y -> letters (tx t) = y.
Proof. intros B <-. apply bytes_eqb_eq in B. now rewrite B. Qed.
Lemma keep_index_macro s0 X s (visible : bool) t a l ls : ext s0 s -> inv s -> okls (l :: ls) -> letters (tx t) = (if visible then $"indexterm2" else $"indexterm") ->
  X = La a ++ letters (tx t) ++ Lts (toks l) ++ Lls ls -> keep s0 X (index_macro s visible t (toks l) (fun n s m => Go s (push_node n (commit a)) None (Some (adv l m)) ls)).
Proof.
  intros Ex I O N HX. unfold index_macro. apply keep_try. intros r D. destruct (discard_ok OpenBracket _ _ (okls_toks _ _ O) eq_refl D) as (p & P & Lp).
  apply keep_with_attrs; [exact Ex|exact I|eapply okls_okv; eassumption|]. intros al at' s' p' m E' I' R L _ Ls. rewrite R, app_assoc in P.
  destruct (positional0 at'); (apply (macro_next s0 X _ t a l ls (p ++ p')); [|exact I'|exact O|exact P|exact HX|intros _; rewrite Lts_app, Lp; cbn [app node_letters]]).
  - eapply ext_trans; eassumption.
  - rewrite L, N. reflexivity.
  - apply ext_report. eapply ext_trans; eassumption.
  - now rewrite letters_app, Ls.
Qed.
Lemma footnote_letters id ns : node_letters (NFootnote id (match ns with [] => None | _ => Some ns end)) = $"footnote" ++ opt_letters id ++ all_letters ns.
Proof. destruct ns; [cbn [node_letters all_letters flat_map]; now rewrite app_nil_r|reflexivity]. Qed.
Lemma xref_letters x ns : node_letters (NXref x (match ns with [] => None | _ => Some ns end) false) = $"xref" ++ letters x ++ all_letters ns.
Proof. destruct ns; [cbn [node_letters all_letters flat_map]; now rewrite app_nil_r|reflexivity]. Qed.
Lemma keep_macro E s0 X s t a l ls : dbg E = true -> ext s0 s -> inv s -> okls (l :: ls) -> okt md t -> X = La a ++ letters (tx t) ++ Lts (toks l) ++ Lls ls -> keep s0 X (inline_macro E s a None t l ls).
Proof.
  intros Db Ex I O Kt HX. pose proof (okls_toks _ _ O) as Fl. unfold inline_macro. cbv zeta. set (a1 := commit a).
  assert (Attr : forall x m, macro_target (toks l) = Ret (x, m) -> forall f : attrs -> bytes -> alist -> inode, (forall al at', node_letters (f at' x al) = letters (tx t) ++ letters x ++ alist_letters al) ->
    keep s0 X (with_attrs s m (fun al at' s m => Go s (push_node (f at' x al) a1) None (Some (adv l m)) ls))).
  { intros x m M f Hf. destruct (macro_target_ok _ _ _ Fl M) as (p & P & Lp). apply keep_with_attrs; [exact Ex|exact I|eapply okls_okv; eassumption|].
    intros al at' s' p' m' E' I' R L _ _. rewrite R, app_assoc in P. apply (macro_next s0 X _ t a l ls (p ++ p')); auto; [eapply ext_trans; eassumption|]. intros _. now rewrite Hf, Lts_app, Lp, L. }
  assert (Link : forall x m, macro_target (toks l) = Ret (x, m) -> letters (tx t) = $"link" ->
    keep s0 X (with_link_attrs E s m (fun al c s m => Go s (push_node (NLink None x (Some al) c) a1) None (Some (adv l m)) ls))).
  { intros x m M N. destruct (macro_target_ok _ _ _ Fl M) as (p & P & Lp). apply keep_link_attrs; [exact Db|exact Ex|exact I|eapply okls_okv; eassumption|].
    intros al b s' p' m' E' I' R L. rewrite R, app_assoc in P. apply (macro_next s0 X _ t a l ls (p ++ p')); auto; [eapply ext_trans; eassumption|]. intros F. cbn [node_letters]. now rewrite N, Lts_app, Lp, (L F). }
  destruct (_ || _) eqn:B1.
  { apply keep_try. intros [x m] M. apply (Attr x m M (fun _ x al => NMacro (tx t) x al)). reflexivity. }
  clear B1. destruct (bytes_eqb (tx t) $"kbd:" && current_is OpenBracket (toks l)) eqn:B2.
  { apply andb_prop in B2. destruct B2 as [B2 B2']. destruct (tl_open _ Fl B2') as (p & P & Lp). destruct (kbd_keys None (tl (toks l))) as [x m] eqn:Kb.
    pose proof Fl as Fl'. rewrite P in Fl'. destruct (kbd_keys_ok _ (Forall_suffix _ _ _ Fl') _ _ _ Kb) as (p' & P' & Lp'). apply keep_try. intros m' D. rewrite P' in Fl'. rewrite P', app_assoc in P.
    destruct (discard_ok CloseBracket _ _ (Forall_suffix _ _ _ (Forall_suffix _ _ _ Fl')) eq_refl D) as (p2 & P2 & Lp2). rewrite P2, app_assoc in P.
    apply (macro_next s0 X _ t a l ls ((p ++ p') ++ p2)); auto. intros _. cbn [node_letters]. rewrite (named_letters _ _ $"kbd" B2 eq_refl), !Lts_app, Lp, Lp2, Lp'. cbn. now rewrite app_nil_r. }
  clear B2. destruct (bytes_eqb (tx t) $"footnote:") eqn:B3.
  { apply keep_try. intros [id m] M. destruct (optional_target_ok _ _ _ Fl M) as (p & P & Lp). rewrite (proj2 I Md). pose proof (okls_suffix l ls p m O P) as O2.
    apply keep_call; auto using okls_restore; [repeat constructor|]. intros ns s' ls' E' I' O' _ L. rewrite (proj2 I' Md). set (s2 := match id with Some _ => _ | None => _ end).
    assert (S2 : ext s' s2 /\ inv s2).
    { unfold s2. destruct id; [split; [apply ext_refl|exact I']|]. destruct ns; split; auto using ext_refl, ext_report. }
    constructor; [eapply ext_trans; [exact Ex|]; eapply ext_trans; [exact E'|apply S2]|apply S2|exact O'|exact Logic.I|]. intros F. apply (ext_fine _ _ (proj1 S2)) in F. specialize (L F).
    rewrite La_node, footnote_letters. unfold a1. rewrite La_commit, HX, P, (named_letters _ _ $"footnote" B3 eq_refl), Lts_app. cbn [Lia Lcur app]. rewrite Lls_restore in L. cbn [toks adv] in L.
    rewrite <- !app_assoc, L, Lp. reflexivity. }
  clear B3. destruct (bytes_eqb (tx t) $"xref:") eqn:B4.
  { apply keep_try. intros [x m] M. destruct (macro_target_ok _ _ _ Fl M) as (p & P & Lp). pose proof (okls_suffix l ls p m O P) as O2.
    apply keep_call; auto using okls_restore; [repeat constructor|]. intros ns s' ls' E' I' O' _ L.
    constructor; [eapply ext_trans; eassumption|exact I'|exact O'|exact Logic.I|]. intros F. specialize (L F).
    rewrite La_node, xref_letters. unfold a1. rewrite La_commit, HX, P, (named_letters _ _ $"xref" B4 eq_refl), Lts_app. cbn [Lia Lcur app]. rewrite Lls_restore in L. cbn [toks adv] in L.
    rewrite <- !app_assoc, L, Lp. reflexivity. }
  clear B4. destruct (bytes_eqb (tx t) $"link:") eqn:B5.
  { destruct (negb _).
    - destruct (toks l) as [|n m] eqn:T; [constructor|]. inversion Fl as [|? ? Kn Fm]; subst. apply keep_next with [n]; auto. intros _. unfold a1. rewrite !La_text, La_commit, Lts_cons, (LT_tx n Kn), <- !app_assoc. reflexivity.
    - assert (G : keep s0 X (try (macro_target (toks l)) (fun '(x, m) => with_link_attrs E s m (fun al c s m => Go s (push_node (NLink None x (Some al) c) a1) None (Some (adv l m)) ls)))).
      { apply keep_try. intros [x m] M. apply (Link x m M). exact (named_letters _ _ $"link" B5 eq_refl). }
      destruct (toks l) as [|p0 [|p1 m]]; [exact G|exact G|]. destruct (starts_with_seq [Kind PreprocPassthru; Kind OpenBracket] (p0 :: p1 :: m)) eqn:S; [|exact G]. exfalso.
      cbn in S. apply andb_prop in S. destruct S as [S _]. inversion Fl as [|? ? K0 _]; subst. destruct K0 as (_ & _ & _ & K0). rewrite (Md : md = true) in K0. apply (proj2 K0). now apply is_k_eq. }
  clear B5. destruct (bytes_eqb (tx t) $"btn:") eqn:B6.
  { apply keep_try. intros m D. destruct (discard_ok OpenBracket _ _ Fl eq_refl D) as (p & P & Lp). pose proof Fl as F1. rewrite P in F1. apply Forall_suffix in F1. apply keep_try. intros [x m1] C.
    destruct (consume_until_ok _ _ _ _ F1 C) as (p1 & P1 & Lp1). rewrite P1 in F1. apply Forall_suffix in F1. apply keep_try. intros m2 D2. destruct (discard_ok CloseBracket _ _ F1 eq_refl D2) as (p2 & P2 & Lp2).
    rewrite P1, P2, !app_assoc in P. apply (macro_next s0 X _ t a l ls ((p ++ p1) ++ p2)); auto. intros _. cbn [node_letters]. rewrite (named_letters _ _ $"btn" B6 eq_refl), !Lts_app, Lp, Lp2, Lp1. cbn. now rewrite app_nil_r. }
  clear B6. destruct (bytes_eqb (tx t) $"menu:") eqn:B7.
  { apply keep_try. intros [x m] M. destruct (macro_target_ok _ _ _ Fl M) as (p & P & Lp). pose proof Fl as F1. rewrite P in F1. apply Forall_suffix in F1. apply keep_try. intros [y m1] C.
    destruct (consume_until_ok _ _ _ _ F1 C) as (p1 & P1 & Lp1). rewrite P1 in F1. apply Forall_suffix in F1. apply keep_try. intros m2 D2. destruct (discard_ok CloseBracket _ _ F1 eq_refl D2) as (p2 & P2 & Lp2).
    rewrite P1, P2, !app_assoc in P. apply (macro_next s0 X _ t a l ls ((p ++ p1) ++ p2)); auto. intros _. cbn [node_letters]. rewrite (named_letters _ _ $"menu" B7 eq_refl), !Lts_app, Lp, Lp2, Lp1. now rewrite app_nil_r. }
  clear B7. destruct (bytes_eqb (tx t) $"anchor:") eqn:B8.
  { apply keep_try. intros [x m] M. apply (Attr x m M (fun _ x al => NAnchorMacro x al)). intros al _. cbn [node_letters]. now rewrite (named_letters _ _ $"anchor" B8 eq_refl). }
  clear B8. destruct (bytes_eqb (tx t) $"indexterm:") eqn:B9; [apply keep_index_macro; auto; exact (named_letters _ _ $"indexterm" B9 eq_refl)|].
  destruct (bytes_eqb (tx t) $"indexterm2:") eqn:B10; [apply keep_index_macro; auto; exact (named_letters _ _ $"indexterm2" B10 eq_refl)|].
  apply keep_try. intros [x m] M. destruct (current_is OpenBracket (toks l)) eqn:Co.
  - injection M as <- <-. destruct (tl_open _ Fl Co) as (p & P & Lp). apply keep_with_attrs; [exact Ex|exact I|eapply okls_okv; eassumption|].
    intros al at' s' p' m' E' I' R L _ _. rewrite R, app_assoc in P. apply (macro_next s0 X _ t a l ls (p ++ p')); auto; [eapply ext_trans; eassumption|]. intros _. cbn [node_letters letters filter app]. now rewrite Lts_app, Lp, L.
  - apply (Attr x m M (fun _ x al => NMacro (tx t) x al)). reflexivity.
Qed.

(** ** Links *)
Lemma index_le q l : forall n, index_of_seq q l = Some n -> n <= length l.
Proof.
  induction l as [|t l IH]; intros n H; [discriminate|]. cbn [index_of_seq] in H. destruct (starts_with_seq q (t :: l)); [injection H as <-; lia|].
  destruct (index_of_seq q l) as [j|]; [|discriminate]. injection H as <-. cbn [length]. specialize (IH j eq_refl). lia.
Qed.
Lemma keep_uri_macro E s0 X s t a l ls : dbg E = true -> ext s0 s -> inv s -> okls (l :: ls) -> X = La a ++ letters (tx t) ++ Lts (toks l) ++ Lls ls -> keep s0 X (uri_macro E s t a None l ls).
Proof.
  intros Db Ex I O HX. pose proof (okls_toks _ _ O) as Fl. unfold uri_macro. cbv zeta. set (n := url_to OpenBracket (toks l)). pose proof (firstn_skipn n (toks l)) as P. symmetry in P.
  assert (Lf : letters (text_of (firstn n (toks l))) = Lts (firstn n (toks l))) by (symmetry; apply Lts_text; eapply seg_Forall; [apply seg_firstn|exact Fl]).
  apply keep_try. intros m D. destruct (discard_ok OpenBracket (skipn n (toks l)) m) as (p1 & P1 & Lp1); [eapply seg_Forall; [apply seg_skipn|exact Fl]|reflexivity|exact D|].
  rewrite P1, app_assoc in P. apply keep_link_attrs; [exact Db|exact Ex|exact I|eapply okls_okv; eassumption|]. intros al b s' p' m' E' I' R L. destruct (url_scheme t); [|constructor].
  rewrite R, app_assoc in P. apply (macro_next s0 X _ t a l ls ((firstn n (toks l) ++ p1) ++ p')); auto; [eapply ext_trans; eassumption|]. intros F. cbn [node_letters app]. rewrite letters_app, Lf, !Lts_app, Lp1, (L F), app_nil_r, <- !app_assoc. reflexivity.
Qed.
Lemma keep_bare s0 X s t a l ls : ext s0 s -> inv s -> okls (l :: ls) -> X = La a ++ letters (tx t) ++ Lts (toks l) ++ Lls ls -> keep s0 X (bare_link s t a None l ls).
Proof.
  intros Ex I O HX. pose proof (okls_toks _ _ O) as Fl. unfold bare_link. destruct (toks l) as [|u r] eqn:T; [constructor|]. rewrite <- T in *. clear T u r.
  assert (Stay : keep s0 X (Go s (push_text (tx t) a) None (Some l) ls)) by (apply keep_stay; auto; intros _; rewrite La_text, HX, <- app_assoc; reflexivity).
  destruct (bare_url (toks l)) as [|n]; [exact Stay|]. destruct (url_scheme t); [|constructor]. set (k := S n). pose proof (firstn_skipn k (toks l)) as P. symmetry in P.
  apply keep_next with (firstn k (toks l)); auto. intros _. rewrite La_node, HX. cbn [node_letters app]. rewrite letters_app, <- Lts_text by (eapply seg_Forall; [apply seg_firstn|exact Fl]).
  rewrite P at 1. rewrite Lts_app, <- !app_assoc. reflexivity.
Qed.
Lemma keep_autolink sb s0 X s t a l ls : ext s0 s -> inv s -> okls (l :: ls) -> letters (tx t) = [] -> X = La a ++ Lts (toks l) ++ Lls ls -> keep s0 X (autolink sb s t a None l ls).
Proof.
  intros Ex I O Lt HX. pose proof (okls_toks _ _ O) as Fl. unfold autolink. destruct (toks l) as [|u r] eqn:T; [constructor|]. destruct r as [|v r0] eqn:R; [constructor|]. rewrite <- R in *. clear R v r0.
  pose proof (Forall_inv Fl) as Ku. pose proof (Forall_inv_tail Fl) as Fr. pose proof (LT_tx u Ku) as Lu. destruct (index_of_kind GreaterThan r) as [n|] eqn:Ix; unfold url_to; rewrite Ix.
  - assert (Zero : keep s0 X (Go s (push_text (tx u) (if contains sb SpecialChars then push_node (NSpecial SLessThan) a else push_node (NText (tx t)) a)) None (Some (adv l r)) ls)).
    { apply keep_next with [u]; auto. intros _. rewrite La_text. destruct (contains sb SpecialChars); rewrite La_node; cbn [node_letters]; rewrite ?Lt, app_nil_r, HX, Lts_cons, Lu, <- !app_assoc; reflexivity. }
    destruct n as [|n]; [exact Zero|]. destruct (url_scheme u); [|constructor]. apply first_index_seq in Ix. pose proof (firstn_skipn (S n) r) as P. destruct (skipn (S n) r) as [|c m] eqn:Sk; [constructor|].
    cbn in Ix. rewrite andb_true_r in Ix. assert (Kc : okt md c) by (eapply (proj1 (Forall_forall _ _)); [exact Fr|]; rewrite <- P; apply in_app_iff; right; now left).
    apply keep_next with (u :: firstn (S n) r ++ [c]); auto.
    + rewrite T. cbn [app]. f_equal. rewrite <- app_assoc. now symmetry.
    + intros _. rewrite !La_node. cbn [node_letters app]. rewrite letters_app, <- Lts_text by (eapply seg_Forall; [apply seg_firstn|exact Fr]). rewrite !app_nil_r, HX, Lts_cons, Lu, <- !app_assoc. f_equal. f_equal.
      rewrite <- P at 1. now rewrite Lts_app, Lts_cons, (mute_k GreaterThan c Kc Ix eq_refl), <- app_assoc.
  - apply keep_next with [u]; auto. intros _. rewrite La_text. destruct (contains sb SpecialChars); rewrite La_node; cbn [node_letters]; rewrite ?Lt, app_nil_r, HX, Lts_cons, Lu, <- !app_assoc; reflexivity.
Qed.

(** ** Cross references and anchors *)
Lemma push_tok_okl x t : okl x -> okt md t -> okl (push_tok x t).
Proof.
  intros [A B] K. split; [cbn; apply Forall_app; split; [exact A|now constructor]|]. intros M. destruct (B M) as [B1 B2]. cbn [push_tok passm pluses]. rewrite B1, B2. cbn [orb].
  destruct K as (_ & _ & _ & K). rewrite M in K. destruct K as [[K1 K2] _].
  assert (P : is_k Plus t = false) by (destruct (is_k Plus t) eqn:P; [apply is_k_eq in P; contradiction|reflexivity]). rewrite P. cbn [andb].
  split; [|reflexivity]. destruct (is_k MacroName t) eqn:N; [|reflexivity]. cbn [andb]. destruct (bytes_eqb (tx t) $"pass:") eqn:N2; [|reflexivity]. exfalso. apply K2. split; [now apply is_k_eq|now apply bytes_eqb_eq].
Qed.
Lemma push_toks p : forall x, okl x -> Forall (okt md) p -> okl (fold_left push_tok p x) /\ toks (fold_left push_tok p x) = toks x ++ p.
Proof.
  induction p as [|t p IH]; intros x Ox F; cbn [fold_left]; [split; [exact Ox|now rewrite app_nil_r]|]. inversion F as [|? ? K F']; subst.
  destruct (IH (push_tok x t) (push_tok_okl _ _ Ox K) F') as [A B]. split; [exact A|]. rewrite B. cbn. now rewrite <- app_assoc.
Qed.
Lemma okl_empty : okl (new_line []).
Proof. split; [constructor|]. now split. Qed.
Lemma line_before_ok q l : forall x y m, okl x -> Forall (okt md) l -> line_before q x l = Some (y, m) -> exists p, l = p ++ m /\ okl y /\ toks y = toks x ++ p /\ starts_with_seq q m = true.
Proof.
  induction l as [|t l IH]; intros x y m Ox F E; cbn [line_before] in E.
  - destruct (starts_with_seq q []) eqn:S; [|discriminate]. injection E as <- <-. exists []. cbn [app]. rewrite app_nil_r. auto.
  - destruct (starts_with_seq q (t :: l)) eqn:S; [injection E as <- <-; exists []; rewrite app_nil_r; auto|]. inversion F as [|? ? K F']; subst.
    destruct (IH _ _ _ (push_tok_okl _ _ Ox K) F' E) as (p & P & Oy & T & Q). exists (t :: p). split; [cbn; now f_equal|]. split; [exact Oy|]. split; [|exact Q]. rewrite T. cbn. now rewrite <- app_assoc.
Qed.
Lemma string_until_stop k l : forall x m, string_until k l = (x, m) -> match m with t :: _ => is_k k t = true | [] => True end.
Proof.
  induction l as [|t l IH]; intros x m E; cbn [string_until] in E; [injection E as <- <-; exact I|]. destruct (is_k k t) eqn:K; [injection E as <- <-; exact K|].
  destruct (string_until k l) as [y n]. specialize (IH _ _ eq_refl). destruct (one_of [AttrRef; Backslash] t); injection E as <- <-; exact IH.
Qed.
Lemma keep_xref s0 X s a l ls : ext s0 s -> inv s -> okls (l :: ls) -> current_is LessThan (toks l) = true -> X = La a ++ Lts (toks l) ++ Lls ls -> keep s0 X (xref_shorthand s a None l ls).
Proof.
  intros Ex I O Cl HX. pose proof (okls_toks _ _ O) as Fl. unfold xref_shorthand. destruct (toks l) as [|c r] eqn:T; [discriminate|]. cbn [tl]. cbn in Cl. pose proof (Forall_inv Fl) as Kc. pose proof (Forall_inv_tail Fl) as Fr.
  rewrite Lts_cons, (mute_k LessThan c Kc Cl eq_refl) in HX. cbn [app] in HX.
  destruct (line_before _ (new_line []) r) as [[inner m]|] eqn:Lb; [|constructor]. destruct (line_before_ok _ _ _ _ _ okl_empty Fr Lb) as (p & P & Oi & Ti & Q). cbn [toks new_line app] in Ti.
  destruct m as [|g1 [|g2 m]]; try (cbn in Q; rewrite ?andb_false_r in Q; discriminate). cbn in Q. rewrite andb_true_r in Q. apply andb_prop in Q. destruct Q as [Q1 Q2].
  assert (Fr' := Fr). rewrite P in Fr'. apply Forall_app in Fr'. destruct Fr' as [Fp Fm]. pose proof (Forall_inv Fm) as Kg1. pose proof (Forall_inv_tail Fm) as Fm1. pose proof (Forall_inv Fm1) as Kg2. pose proof (Forall_inv_tail Fm1) as Fm2.
  assert (HX' : X = La a ++ Lts p ++ Lts m ++ Lls ls).
  { rewrite HX, P, Lts_app, !Lts_cons, (mute_k GreaterThan g1 Kg1 Q1 eq_refl), (mute_k GreaterThan g2 Kg2 Q2 eq_refl), <- app_assoc. reflexivity. }
  assert (Tl : toks l = (c :: p ++ [g1; g2]) ++ m) by (rewrite T, P; cbn; now rewrite <- app_assoc).
  apply keep_try. intros [x rest] C. rewrite Ti in C. destruct (consume_until_ok _ _ _ _ Fp C) as (p1 & P1 & Lp1). cbn [skipn].
  assert (St : match rest with t :: _ => is_k Comma t = true | [] => True end).
  { unfold consume_until in C. destruct p as [|t0 p0]; [discriminate|]. injection C as C. apply (string_until_stop Comma (t0 :: p0) x). exact C. }
  assert (Fin : forall s' o, ext s0 s' -> inv s' -> (fine s' -> node_letters (NXref x o true) = Lts p) -> keep s0 X (Go s' (push_node (NXref x o true) a) None (Some (adv l m)) ls)).
  { intros s' o E' I' N. apply keep_next with (c :: p ++ [g1; g2]); auto. intros F. now rewrite La_node, (N F), HX', <- !app_assoc. }
  assert (Drop : forall rest', Lts rest = Lts rest' -> trim_front rest' = [] -> Forall (okt md) rest' -> letters x = Lts p).
  { intros r' R' Tf F'. destruct (trim_front_ok r' F') as (w & W & Lw). rewrite Tf, app_nil_r in W. subst w. now rewrite P1, Lts_app, R', Lw, app_nil_r. }
  destruct rest as [|cm rest]; [apply Fin; auto; intros _; cbn [node_letters app]; now rewrite P1, app_nil_r|].
  assert (Fc := Fp). rewrite P1 in Fc. apply Forall_suffix in Fc. pose proof (Forall_inv Fc) as Kcm. pose proof (Forall_inv_tail Fc) as Fc'. assert (Lc : Lts (cm :: rest) = Lts rest) by (rewrite Lts_cons, (mute_k Comma cm Kcm St eq_refl); reflexivity).
  destruct (trim_front_ok rest Fc') as (w & W & Lw). destruct (trim_front rest) as [|t0 rest'] eqn:Tf; [apply Fin; auto; intros _; cbn [node_letters app]; now apply (Drop rest)|].
  assert (Seg : seg (t0 :: rest') (toks l)).
  { rewrite T, P, P1. apply seg_cons. rewrite W. exists (p1 ++ cm :: w), (g1 :: g2 :: m). rewrite <- !app_assoc. cbn. now rewrite <- !app_assoc. }
  constructor; [exact Ex|exact I| |constructor|].
  - pose proof (okls_seg l ls _ O Seg) as [A B]. split; [|exact B]. constructor; [|constructor]. inversion A as [|? ? [A1 A2] _]; subst. split; [exact A1|]. intros M. destruct Oi as [_ Oi]. exact (Oi M).
  - intros ns s' ls' E' I' O' Qq L. rewrite (Qq eq_refl) in L. apply Fin; [eapply ext_trans; eassumption|exact I'|]. intros F. specialize (L F). rewrite Lls_cons in L. cbn [toks adv Lls flat_map] in L. rewrite !app_nil_r in L.
    cbn [node_letters app]. change (letters x ++ all_letters ns = Lts p). rewrite <- L, P1, Lts_app, Lc, W, Lts_app, Lw, Lp1. reflexivity.
Qed.
Lemma until_one_ok qs l : Forall (okt md) l -> forall x m, until_one_of qs l = (x, m) ->
  exists p, l = p ++ m /\ letters x = Lts p /\ Forall (fun t => existsb (fun s => satisfies s t) qs = false) p /\ match m with t :: _ => existsb (fun s => satisfies s t) qs = true | [] => True end.
Proof.
  induction 1 as [|t l K F IH]; intros x m E; cbn [until_one_of] in E; [injection E as <- <-; exists []; auto|]. destruct (existsb _ qs) eqn:S; [injection E as <- <-; exists []; auto|].
  destruct (until_one_of qs l) as [y n]. destruct (IH _ _ eq_refl) as (p & P & L & Q & H). injection E as <- <-. exists (t :: p). split; [cbn; now f_equal|]. split; [now rewrite letters_app, Lts_cons, L, LT_tx|]. split; [now constructor|exact H].
Qed.
Lemma until_close_ok l : forall x m, until_close l = Ret (x, m) -> l = x ++ m /\ match m with t :: _ => is_k CloseBracket t = true | [] => False end.
Proof.
  induction l as [|t l IH]; intros x m E; cbn [until_close] in E; [discriminate|]. destruct (is_k CloseBracket t) eqn:C; [injection E as <- <-; auto|].
  destruct (until_close l) as [[y n]|]; [|discriminate]. injection E as <- <-. destruct (IH _ _ eq_refl) as [A B]. split; [cbn; now f_equal|exact B].
Qed.
Lemma keep_anchor s0 X s t b r' a l ls : ext s0 s -> inv s -> okls (adv l (t :: b :: r') :: ls) -> is_k OpenBracket t = true -> continues_inline_anchor (b :: r') = true -> X = La a ++ Lts r' ++ Lls ls ->
  keep s0 X (anchor_node s r' (fun s => Go s (push_text (text_of (firstn 1 (b :: r')) ++ tx t) a) None (Some (adv l r')) ls) (fun id ref s m => Go s (push_node (NAnchor id ref) a) None (Some (adv l m)) ls)).
Proof.
  intros Ex I O Ht Co HX. pose proof (okls_toks _ _ O) as Fl. cbn [toks adv] in Fl. pose proof (Forall_inv Fl) as Kt. pose proof (Forall_inv_tail Fl) as F1. pose proof (Forall_inv F1) as Kb. pose proof (Forall_inv_tail F1) as Fr.
  unfold continues_inline_anchor in Co. destruct (starts_with_seq _ (b :: r')) eqn:Sb; [|discriminate]. cbn [starts_with_seq satisfies] in Sb. apply andb_prop in Sb. destruct Sb as [Hb _].
  destruct (index_of_seq _ (b :: r')) as [i|] eqn:Ix; [|discriminate].
  assert (Suf : forall p m s' a', r' = p ++ m -> ext s0 s' -> inv s' -> (fine s' -> La a' = La a ++ Lts p) -> keep s0 X (Go s' a' None (Some (adv l m)) ls)).
  { intros p m s' a' P E' I' A. apply (keep_next s0 X s' a' (t :: b :: p) m (adv l (t :: b :: r')) ls); auto; [cbn; now rewrite P|]. intros F. rewrite (A F), HX, P, Lts_app, <- !app_assoc. reflexivity. }
  unfold anchor_node. apply keep_try. intros [o m] Pa. unfold parse_anchor in Pa. destruct r' as [|c0 r0] eqn:R; [discriminate|]. rewrite <- R in *. clear R.
  destruct (one_of _ c0).
  { injection Pa as <- <-. apply (Suf []); auto. intros _. rewrite La_text, letters_app. cbn [firstn text_of flat_map app]. rewrite app_nil_r, (tx_letters OpenBracket b Kb Hb eq_refl), (tx_letters OpenBracket t Kt Ht eq_refl). reflexivity. }
  destruct (until_one_of _ r') as [id r] eqn:U. destruct (until_one_ok _ _ Fr _ _ U) as (p & P & Lp & Np & Hr). destruct id as [|i0 id]; [discriminate|]. destruct r as [|c r]; [discriminate|].
  set (Id := i0 :: id) in *. assert (Kc : okt md c) by (rewrite P in Fr; apply Forall_app in Fr; now apply (Forall_inv (proj2 Fr))). assert (Fr2 : Forall (okt md) r) by (rewrite P in Fr; apply Forall_app in Fr; exact (Forall_inv_tail (proj2 Fr))).
  destruct (is_k CloseBracket c) eqn:Cc.
  - injection Pa as <- <-. assert (H : match r with y :: _ => is_k CloseBracket y = true | [] => True end).
    { assert (Nb : Forall (fun t => is_k CloseBracket t = false) (b :: p)).
      { constructor; [apply is_k_eq in Hb; unfold is_k; now rewrite Hb|]. eapply Forall_impl; [|exact Np]. intros y Y. cbn in Y. rewrite orb_false_r in Y. apply orb_false_iff in Y. tauto. }
      assert (Pv : match rev (b :: p) with t0 :: _ => is_k Backslash t0 = false | [] => True end).
      { destruct (rev (b :: p)) as [|z zs] eqn:Rv; [exact Logic.I|]. destruct (is_k Backslash z) eqn:Bz; [|reflexivity]. exfalso. destruct O as [_ O]. specialize (O Md). cbn [flat_map toks adv] in O.
        assert (O2 : calm (t :: b :: r')) by (eapply calm_seg; [|exact O]; apply seg_app_l). destruct O2 as [_ [N|N]]; apply N.
        - exists [], t, [], b, r'. repeat split; [now apply is_k_eq|constructor|]. apply is_k_eq in Hb. unfold one_of. now rewrite Hb.
        - exists (t :: rev zs), z, [], c, r. assert (Rv' : b :: p = rev zs ++ [z]) by (rewrite <- (rev_involutive (b :: p)), Rv; reflexivity). repeat split; [|now apply is_k_eq|constructor|].
          + rewrite P. change (t :: b :: p ++ c :: r) with (t :: (b :: p) ++ c :: r). rewrite Rv', <- app_assoc. reflexivity.
          + apply is_k_eq in Cc. unfold one_of. now rewrite Cc. }
      unfold first_nonescaped in Co. rewrite P in Co, Ix. change (b :: p ++ c :: r) with ((b :: p) ++ c :: r) in Co, Ix. rewrite (first_from_app CloseBracket (b :: p) None (c :: r) Nb) in Co.
      cbn [first_nonescaped_from] in Co. rewrite Cc in Co. assert (Ab : at_k Backslash (match rev (b :: p) with t0 :: _ => Some t0 | [] => None end) = false) by (destruct (rev (b :: p)); [reflexivity|exact Pv]).
      rewrite Ab in Co. cbn [andb negb option_map] in Co. rewrite Nat.add_0_r in Co. apply Nat.eqb_eq in Co. subst i. apply first_index_seq in Ix. rewrite skipn_app, skipn_all, Nat.sub_diag in Ix. cbn [app skipn starts_with_seq satisfies] in Ix.
      rewrite Cc in Ix. cbn [andb] in Ix. destruct r as [|y r]; [exact Logic.I|]. now rewrite andb_true_r in Ix. }
    assert (P' : exists q, r' = q ++ tl r /\ Lts q = Lts p).
    { destruct r as [|y r]; [exists (p ++ [c]); split; [now rewrite <- app_assoc|]; now rewrite Lts_app, Lts_cons, (mute_k CloseBracket c Kc Cc eq_refl), app_nil_r|].
      exists (p ++ [c; y]). split; [now rewrite <- app_assoc|]. now rewrite Lts_app, !Lts_cons, (mute_k CloseBracket c Kc Cc eq_refl), (mute_k CloseBracket y (Forall_inv Fr2) H eq_refl), app_nil_r. }
    destruct P' as (q & Q & Lq). apply (Suf q); auto. intros _. rewrite La_node. cbn [node_letters flat_map]. now rewrite app_nil_r, Lp, Lq.
  - assert (Cm : is_k Comma c = true) by (cbn in Hr; rewrite Cc, !orb_false_r in Hr; exact Hr). set (r2 := match r with w :: m0 => _ | [] => _ end) in Pa.
    assert (W : exists w, r = w ++ r2 /\ Lts w = []).
    { unfold r2. destruct r as [|w r]; [exists []; auto|]. destruct (is_k Whitespace w) eqn:Ww; [|exists []; auto]. exists [w]. split; [reflexivity|]. now rewrite Lts_cons, (mute_k Whitespace w (Forall_inv Fr2) Ww eq_refl). }
    destruct W as (w & W & Lw). destruct (until_close r2) as [[ref rest]|] eqn:Uc; [|discriminate]. destruct (until_close_ok _ _ _ Uc) as [P2 H2]. destruct rest as [|x [|y rest]]; [discriminate|discriminate|].
    destruct (is_k CloseBracket y) eqn:Cy; [|discriminate]. injection Pa as <- <-.
    assert (Fr3 := Fr2). rewrite W, P2 in Fr3. apply Forall_suffix in Fr3. apply Forall_app in Fr3. destruct Fr3 as [Fref Fxy].
    set (q := p ++ c :: w ++ ref ++ [x; y]). assert (Q : r' = q ++ rest) by (unfold q; rewrite P, W, P2, <- !app_assoc; cbn; rewrite <- !app_assoc; reflexivity).
    assert (Lq : Lts q = Lts p ++ Lts ref).
    { unfold q. rewrite Lts_app, Lts_cons, !Lts_app, !Lts_cons, (mute_k Comma c Kc Cm eq_refl), Lw, (mute_k CloseBracket x (Forall_inv Fxy) H2 eq_refl), (mute_k CloseBracket y (Forall_inv (Forall_inv_tail Fxy)) Cy eq_refl). cbn. now rewrite app_nil_r. }
    destruct ref as [|t1 ref1] eqn:Rf.
    + apply (Suf q); auto. intros _. rewrite La_node. cbn [node_letters flat_map]. now rewrite app_nil_r, Lp, Lq, app_nil_r.
    + rewrite <- Rf in *. destruct (push_toks ref (new_line []) okl_empty Fref) as [A1 A2]. cbn [toks new_line app] in A2. constructor; [exact Ex|exact I| |constructor|].
      * split; [constructor; [exact A1|constructor]|]. intros M. cbn [flat_map]. rewrite A2, app_nil_r. destruct O as [_ O]. eapply calm_seg; [|exact (O M)]. cbn [flat_map toks adv]. exists (t :: b :: p ++ c :: w), (x :: y :: rest ++ flat_map toks ls).
        rewrite Q. unfold q. rewrite Rf. repeat (rewrite <- !app_assoc; cbn [app]). reflexivity.
      * intros ns s' ls' E' I' O' Qq L. rewrite (Qq eq_refl) in L. apply (Suf q); auto; [eapply ext_trans; eassumption|]. intros F. specialize (L F). rewrite Lls_cons, A2 in L. cbn [Lls flat_map] in L. rewrite !app_nil_r in L.
        rewrite La_node. cbn [node_letters]. change (flat_map node_letters ns) with (all_letters ns). now rewrite Lp, Lq, L.
Qed.
(** ** Backslashes *)
Lemma backslashes_letters r : Forall (okt md) r -> Lts (firstn (backslashes r) r) = [].
Proof. induction 1 as [|t r K F IH]; [reflexivity|]. cbn [backslashes]. destruct (is_k Backslash t) eqn:B; [|reflexivity]. cbn [firstn]. now rewrite Lts_cons, IH, (mute_k Backslash t K B eq_refl). Qed.
Lemma keep_backslash E sb s0 X s t a l ls : ext s0 s -> inv s -> okls (l :: ls) -> letters (tx t) = [] -> X = La a ++ Lts (toks l) ++ Lls ls -> keep s0 X (backslash E sb s t a None l ls).
Proof.
  intros Ex I O Lt HX. pose proof (okls_toks _ _ O) as Fl. unfold backslash. cbv zeta.
  assert (Plain : keep s0 X (Go s (push_text (tx t) a) None (Some l) ls)) by (apply keep_stay; auto; intros _; now rewrite La_text, Lt, app_nil_r, HX).
  destruct (toks l) as [|n m] eqn:T; [exact Plain|]. pose proof (Forall_inv Fl) as Kn. destruct (is_k Word n); [exact Plain|]. destruct (is_k OpenParens n && _ && _) eqn:Op.
  - apply andb_prop in Op. destruct Op as [Op _]. apply andb_prop in Op. destruct Op as [Op _]. assert (Pn : one_of [OpenParens; CloseParens] n = true) by (apply is_k_eq in Op; unfold one_of; now rewrite Op).
    destruct (ends_term m ls) as [e|]; [|constructor]. destruct (cut_okt (length (tx n) - 1) n Kn Pn) as (C1 & C2 & C3).
    apply keep_shorthand; [exact Ex|exact I|apply okls_suffix with [n]; [exact O|exact T]|exact C1|now apply is_k_eq|]. intros a' nd s' ls' E' I' O' L. constructor; [eapply ext_trans; eassumption|exact I'|exact O'|exact Logic.I|].
    intros F. rewrite La_node. cbn [Lia Lcur app]. specialize (L F). rewrite La_text, La_node in L. cbn [node_letters letters filter letter toks adv] in L. cbn in L. rewrite !app_nil_r in L. rewrite HX, Lts_cons, C3, <- !app_assoc. exact L.
  - set (r := n :: m) in *. set (b := backslashes r). pose proof (firstn_skipn b r) as P. symmetry in P. assert (Lb : Lts (firstn b r) = []) by now apply backslashes_letters.
    destruct (negb _ || _).
    + destruct (skipn b r) as [|x m'] eqn:Sk; [constructor|]. apply keep_next with (firstn b r ++ [x]); auto; [rewrite T, <- app_assoc; exact P|]. intros _.
      assert (Kx : okt md x) by (rewrite P in Fl; apply Forall_app in Fl; exact (Forall_inv (proj2 Fl))). rewrite La_text, La_discarded, HX, P, Lts_app, Lb, Lts_cons, (LT_tx x Kx), <- !app_assoc. reflexivity.
    + apply keep_next with (firstn b r); auto; [rewrite T; exact P|]. intros _. rewrite La_discarded, HX. rewrite P at 1. now rewrite Lts_app, Lb.
Qed.
End macros.
(** ** Passthroughs taken *)
Lemma take_letters s t ns s' : take_passthru s t = Some (ns, s') -> ext s s' /\ (inv s -> inv s') /\ (fine s' -> V (slot (inf t)) = all_letters ns).
Proof.
  unfold take_passthru. destruct (nth_error (pass_of s) (slot (inf t))) as [[n [|]]|] eqn:N; try discriminate. intros E. injection E as <- <-. set (i := slot (inf t)) in *.
  assert (M : map fst (firstn i (pass_of s) ++ (n, true) :: skipn (S i) (pass_of s)) = map fst (pass_of s)).
  { rewrite map_app. cbn [map fst]. pose proof (nth_error_split _ _ N) as (l1 & l2 & P & Ll). rewrite P, <- Ll. rewrite firstn_app, firstn_all, Nat.sub_diag, app_nil_r.
    change (S (length l1)) with (1 + length l1). rewrite Nat.add_comm, skipn_app. replace (length l1 + 1 - length l1) with 1 by lia. rewrite skipn_all2 by lia. cbn [skipn app]. now rewrite map_app. }
  assert (E : ext s (set_pass (firstn i (pass_of s) ++ (n, true) :: skipn (S i) (pass_of s)) s)).
  { split; [exists []; rewrite app_nil_r; exact M|exists []; now rewrite app_nil_r]. }
  split; [exact E|]. split; [intros I; exact I|]. intros F. apply (ext_fine _ _ E) in F. exact (proj1 F i _ N).
Qed.
(** ** One token *)
Lemma in_macros k t : okt md t -> is_k k t = true -> existsb (kind_eqb k) [MacroName; UriScheme; LessThan; OpenBracket; Backslash] = true -> md = true.
Proof.
  intros (_ & _ & _ & K) H M. destruct md; [reflexivity|]. destruct K as [K _]. unfold calls_nothing, one_of in K. apply is_k_eq in H. rewrite H in K. congruence.
Qed.
Lemma removed x f y : remove x f = Ret y -> contains y f = false /\ (forall g, contains y g = true -> contains x g = true).
Proof.
  unfold remove. destruct (contains x f) eqn:C; [|intros E; injection E as <-; auto]. destruct (pack _) as [o|]; [|discriminate]. intros E. destruct x as [o0 f0]. cbn [flags order] in E.
  assert (Y : y = mkSubs o (N.land f0 (255 - bitflag f))) by congruence. subst y. split.
  - rewrite (contains_clear o o0), (proj2 (sub_eqb_eq f f) eq_refl). apply andb_false_r.
  - intros g. rewrite (contains_clear o o0). intros H. apply andb_prop in H. exact (proj1 H).
Qed.
Lemma current_LT k r : Forall (okt md) r -> current_is k r = true -> existsb (kind_eqb k) mute = true -> Lts (firstn 1 r) = [].
Proof. intros F C M. destruct r as [|t r]; [discriminate|]. cbn [firstn]. now rewrite Lts_cons, (mute_k k t (Forall_inv F) C M). Qed.
Ltac ands := repeat match goal with H : _ && _ = true |- _ => apply andb_prop in H; destruct H end.
Lemma keep_token E q s0 X s a t r l ls : dbg E = true -> biblio_list E = false -> calmly sb0 -> ext s0 s -> inv s -> okls (l :: ls) -> toks l = t :: r -> X = La a ++ LT t ++ Lts r ++ Lls ls ->
  keep s0 X (token_step E q sb0 s a None t (adv l r) ls).
Proof.
  intros Db Bib Cs Ex I O T HX. pose proof (okls_toks _ _ O) as Fl. rewrite T in Fl. pose proof (Forall_inv Fl) as Kt. pose proof (Forall_inv_tail Fl) as Fr.
  assert (O2 : okls (adv l r :: ls)) by (apply okls_suffix with [t]; auto).
  assert (Mu : forall k, is_k k t = true -> existsb (kind_eqb k) mute = true -> X = La a ++ Lts r ++ Lls ls) by (intros k K M; rewrite HX, (mute_k k t Kt K M); reflexivity).
  assert (Tx : forall k, is_k k t = true -> kind_eqb k PreprocPassthru = false -> LT t = letters (tx t)) by (intros k K N; apply (LT_kind k); auto).
  assert (Mm : forall k, is_k k t = true -> existsb (kind_eqb k) [MacroName; UriScheme; LessThan; OpenBracket; Backslash] = true -> md = true) by (intros k; apply in_macros; exact Kt).
  assert (Stay : forall a', La a' = La a ++ LT t -> keep s0 X (Go s a' None (Some (adv l r)) ls)) by (intros a' A; apply keep_stay; auto; intros _; cbn [toks adv]; rewrite A, HX, <- app_assoc; reflexivity).
  assert (Wd : LT t = letters (tx t) -> keep s0 X (Go s (push_text (tx t) a) None (Some (adv l r)) ls)) by (intros L; apply Stay; now rewrite La_text, L).
  assert (Node : forall n, node_letters n = LT t -> keep s0 X (Go s (push_node n a) None (Some (adv l r)) ls)) by (intros n N; apply Stay; now rewrite La_node, N).
  assert (Next : forall n, node_letters n = LT t -> Lts (firstn 1 r) = [] -> keep s0 X (Go s (push_node n a) None (Some (adv (adv l r) (tl r))) ls)).
  { intros n N L1. apply keep_next with (firstn 1 r); auto; [destruct r; reflexivity|]. intros _. rewrite La_node, N, HX, <- !app_assoc. do 2 f_equal. destruct r as [|u r']; [reflexivity|]. cbn [tl firstn] in *. rewrite Lts_cons in *. cbn in L1. rewrite app_nil_r in L1. now rewrite L1. }
  assert (Span : forall s1 kd q', ext s0 s1 -> inv s1 -> LT t = [] -> Forall quiet q' -> Lts (firstn (length q' - 1) r) = [] -> keep s0 X (parse_node E s1 a (NSpan kd None) same_st None q' (adv l r) ls)).
  { intros s1 kd q' E1 I1 L Q Fn. apply keep_node with (Y := []); auto. cbn [app toks adv]. rewrite HX, L. reflexivity. }
  assert (Quote : forall d q', LT t = [] -> Forall quiet q' -> Lts (firstn (length q' - 1) r) = [] -> keep s0 X (parse_node E s a (NQuote d) same_st None q' (adv l r) ls)).
  { intros d q' L Q Fn. apply keep_node with (Y := []); auto. cbn [app toks adv]. rewrite HX, L. reflexivity. }
  assert (Simple : forall n, node_letters n = [] -> LT t = [] -> Lts (firstn 1 r) = [] -> keep s0 X (push_simple s n a None (adv l r) ls)).
  { intros n N L L1. apply keep_simple; auto. cbn [toks adv]. rewrite HX, L. reflexivity. }
  assert (Ctx : forall c, ext s0 (set_ctx c s) /\ inv (set_ctx c s)) by (intros c; split; [exact Ex|exact I]).
  assert (Single : forall k, Lts (firstn (length (single k) - 1) r) = []) by reflexivity.
  assert (Double : forall k, current_is k r = true -> existsb (kind_eqb k) mute = true -> Lts (firstn (length (double k) - 1) r) = []) by (intros k C M; cbn; now apply (current_LT k)).
  unfold token_step. cbv zeta. cbn [toks adv].
  destruct (is_k OpenBracket t && contains sb0 InlineFormatting && _) eqn:B.
  { ands. apply keep_try. intros [al m] Fa. pose proof (Mm _ H eq_refl) as Md. pose proof (formatted_ends _ _ _ H0 Fa) as Fe. unfold formatted_attr_list in Fa.
    apply parse_attr_list_seg in Fa; [|eapply Forall_impl; [|exact Fr]; apply okt_noref]. destruct Fa as [_ (p & c & P & Cc)]. assert (P' : r = (p ++ [c]) ++ m) by now rewrite <- app_assoc.
    constructor; [exact Ex|exact I| | |].
    - cbn [okc]. apply okls_suffix with (p ++ [c]); auto.
    - cbn [pend]. split; [exact Md|]. split; [assumption|]. destruct m as [|x m]; [destruct Fe|]. exists (adv (adv l r) (x :: m)), x, m. split; [reflexivity|]. split; [reflexivity|]. split; [exact Fe|]. intros Bx.
      destruct m as [|y m]; [exact Logic.I|]. destruct (one_of [SingleQuote; DoubleQuote] y) eqn:Y; [|reflexivity]. exfalso. destruct O2 as [_ O2]. specialize (O2 Md). cbn [flat_map toks adv] in O2.
      assert (C2 : calm r) by (eapply calm_seg; [|exact O2]; apply seg_app_l). rewrite P in C2. destruct C2 as [[N|N] _]; apply N.
      + exists p, c, [], x, (y :: m). repeat split; [now apply is_k_eq|constructor|]. unfold one_of. now rewrite Bx.
      + exists (p ++ [c]), x, [], y, m. repeat split; [now rewrite <- app_assoc|exact Bx|constructor|exact Y].
    - intros _. cbn [Lia alist_src Lcur toks adv]. rewrite (consumed_split _ _ _ P'), (Mu _ H eq_refl), letters_app, <- (Lts_text Md); [|rewrite P' in Fr; now apply Forall_app in Fr].
      rewrite P' at 1. rewrite Lts_app, <- !app_assoc. reflexivity. }
  clear B. destruct (is_k OpenParens t && contains sb0 CharReplacement && _ && _) eqn:B.
  { apply andb_prop in B. destruct B as [B S]. ands. destruct r as [|w [|c r']]; [discriminate|cbn in S; rewrite andb_false_r in S; discriminate|]. cbn [starts_with_seq satisfies] in S. ands. cbn [skipn].
    assert (Lw : LT w = letters (tx w)) by (apply (LT_kind Word); auto). assert (Lc : LT c = []) by (apply (mute_k CloseParens); auto; exact (Forall_inv (Forall_inv_tail Fr))).
    assert (Sym : forall n, letters (tx w) = symbol_letters n -> keep s0 X (Go s (push_node (NSymbol n) a) None (Some (adv (adv l (w :: c :: r')) r')) ls)).
    { intros n N. apply keep_next with [w; c]; auto. intros _. rewrite La_node. cbn [node_letters]. rewrite (Mu OpenParens), !Lts_cons, Lc, Lw, N by auto. cbn. rewrite <- !app_assoc. reflexivity. }
    destruct (bytes_eqb (tx w) $"C") eqn:B1; [apply Sym; apply bytes_eqb_eq in B1; now rewrite B1|]. destruct (bytes_eqb (tx w) $"TM") eqn:B2; [apply Sym; apply bytes_eqb_eq in B2; now rewrite B2|].
    destruct (bytes_eqb (tx w) $"R") eqn:B3; [apply Sym; apply bytes_eqb_eq in B3; now rewrite B3|]. apply Wd. eapply Tx; eauto. }
  clear B. destruct (is_k OpenParens t && _ && _) eqn:B.
  { ands. destruct (ends_term r ls) as [e|].
    - apply keep_shorthand; auto; [now apply is_k_eq|]. intros a' nd s' ls' E' I' O' L. constructor; [eapply ext_trans; eassumption|exact I'|exact O'|exact Logic.I|].
      intros F. rewrite La_node. cbn [Lia Lcur app]. rewrite (Mu OpenParens), <- !app_assoc by auto. exact (L F).
    - cbn [push_unused]. apply Wd. eapply Tx; eauto. }
  clear B. destruct (is_k Dashes t && _ && _) eqn:B; [ands; apply (keep_emdash E s0 X s t a (adv l r)); auto; now apply is_k_eq|].
  clear B. destruct (is_k Dots t && _ && _) eqn:B; [ands; apply Node; symmetry; eapply mute_k; eauto|].
  clear B. destruct (is_k Dashes t && _ && _ && _) eqn:B; [ands; apply Next; [symmetry; eapply mute_k; eauto|eapply current_LT; eauto]|].
  clear B. destruct (is_k EqualSigns t && _ && _ && _) eqn:B; [ands; apply Next; [symmetry; eapply mute_k; eauto|eapply current_LT; eauto]|].
  assert (Seq1 : forall n k, starts_with_seq [Len n k] r = true -> existsb (kind_eqb k) mute = true -> Lts (firstn 1 r) = []).
  { intros n k S M. destruct r as [|u r']; [discriminate|]. cbn in S. ands. apply (current_LT k); auto. }
  clear B. destruct (is_k LessThan t && _ && _) eqn:B; [ands; apply Next; [symmetry; eapply mute_k; eauto|eapply Seq1; eauto]|].
  clear B. destruct (is_k LessThan t && _ && _) eqn:B; [ands; apply Next; [symmetry; eapply mute_k; eauto|eapply Seq1; eauto]|].
  clear B. destruct (is_k MacroName t && _ && _) eqn:B; [ands; apply keep_macro; auto; [eapply Mm; eauto|]; cbn [toks adv]; rewrite HX, (Tx MacroName); auto|].
  clear B. destruct (is_k MacroName t && _ && _ && _) eqn:B.
  { ands. destruct r as [|n m]; [constructor|]. apply keep_next with [n]; auto. intros _. rewrite !La_text, HX, (Tx MacroName), Lts_cons, (LT_kind UriScheme n), <- !app_assoc by auto. reflexivity. }
  clear B. destruct (is_k UriScheme t && _ && _) eqn:B; [ands; apply keep_uri_macro; auto; [eapply Mm; eauto|]; cbn [toks adv]; rewrite HX, (Tx UriScheme); auto|].
  assert (NoRef : is_k AttrRef t = false) by exact (okt_noref t Kt). rewrite NoRef. cbn [andb].
  clear B. destruct (is_k AttrPassDbl t) eqn:B; [exfalso; destruct Kt as (_ & K & _); unfold one_of in K; cbn [existsb] in K; unfold is_k in B; rewrite B, orb_true_r in K; discriminate|].
  assert (Tuck : LT t = letters (tx t) -> keep s0 X (callout_tuck s t a None (adv l r) ls)) by (intros L; apply keep_tuck; auto).
  clear B. destruct (is_k TermDelimiter t && _ && _ && _ && _ && _) eqn:B; [ands; apply Tuck; eapply Tx; eauto|].
  clear B. destruct (is_k Hash t && _ && _ && _) eqn:B; [ands; apply Tuck; eapply Tx; eauto|].
  clear B. destruct (is_k ForwardSlashes t && _ && _ && _ && _) eqn:B; [ands; apply Tuck; eapply Tx; eauto|].
  clear B. destruct (is_k CalloutNumber t && _ && _) eqn:B.
  { ands. apply Stay. rewrite La_node. cbn [node_letters]. rewrite (Tx CalloutNumber) by auto. f_equal. rewrite <- (La_recover E a). unfold La. cbn [nodes_of text]. now rewrite trim_end_letters. }
  clear B. destruct (is_k CalloutNumber t && _) eqn:B.
  { ands. apply Stay. rewrite La_node, La_text, La_node. cbn [node_letters]. rewrite !app_nil_r, (Tx CalloutNumber) by auto. f_equal. destruct Kt as [[_ Kt] _]. apply Kt. now apply is_k_eq. }
  clear B. destruct (is_k LessThan t && continues_xref r) eqn:B.
  { ands. apply keep_xref; auto; [eapply Mm; eauto| |exact (Mu LessThan ltac:(assumption) eq_refl)]. unfold continues_xref in H0. ands. assumption. }
  clear B. destruct (is_k LessThan t && _ && _ && _) eqn:B.
  { ands. pose proof (Mm _ H eq_refl) as Md. apply keep_autolink; auto; [eapply tx_letters; eauto|exact (Mu LessThan ltac:(assumption) eq_refl)]. }
  clear B. destruct (is_k Email t && _) eqn:B; [ands; apply Node; cbn [node_letters app]; symmetry; eapply Tx; eauto|].
  assert (Un : forall k, starts_unconstrained k t r ls = true -> existsb (kind_eqb k) mute = true -> Lts (firstn (length (double k) - 1) r) = []).
  { intros k U M. unfold starts_unconstrained in U. ands. now apply Double. }
  assert (Q1 : forall k, existsb (kind_eqb k) mute = true -> Forall quiet (single k)) by (intros k M; repeat constructor; exact M).
  assert (Q2 : forall k, existsb (kind_eqb k) mute = true -> Forall quiet (double k)) by (intros k M; repeat constructor; exact M).
  assert (M0 : forall k, is_k k t = true -> existsb (kind_eqb k) mute = true -> LT t = []) by (intros k; apply mute_k; exact Kt).
  clear B. destruct (is_k Underscore t && _ && _) eqn:B; [ands; apply Span; try apply Ctx; eauto|].
  clear B. destruct (is_k Underscore t && _ && _) eqn:B; [ands; apply Span; try apply Ctx; eauto|].
  clear B. destruct (is_k Star t && _ && _) eqn:B; [ands; apply Span; try apply Ctx; eauto|].
  clear B. destruct (is_k Star t && _ && _) eqn:B; [ands; apply Span; try apply Ctx; eauto|].
  rewrite Bib, andb_false_r. cbn [andb].
  clear B. destruct (is_k OpenBracket t && _) eqn:B; [ands; apply Wd; eapply Tx; eauto|].
  clear B. destruct (is_k OpenBracket t && continues_inline_anchor r) eqn:B.
  { ands. destruct r as [|b r']; [discriminate|]. cbn [tl]. pose proof (Mm _ H eq_refl) as Md. apply keep_anchor; auto; [exact (okls_suffix l ls [] _ O T)|].
    rewrite (Mu OpenBracket), Lts_cons by auto. unfold continues_inline_anchor in H0. destruct (starts_with_seq _ (b :: r')) eqn:S; [|discriminate]. cbn [starts_with_seq satisfies] in S. ands.
    rewrite (mute_k OpenBracket b); auto. exact (Forall_inv Fr). }
  clear B. destruct (is_k Backtick t && _ && _ && _ && _) eqn:B.
  { ands. apply keep_try. intros x R1. apply keep_try. intros y R2. destruct (removed _ _ _ R1) as [C1 _]. destruct (removed _ _ _ R2) as [_ C2].
    apply keep_node with (Y := []); auto.
    - split; [|exact (proj2 I)]. intros M. cbn [subs_of set_subs]. destruct (contains y InlineFormatting) eqn:Cy; [|reflexivity]. apply C2 in Cy. congruence.
    - repeat constructor.
    - cbn [length Nat.sub toks adv]. destruct r as [|u r']; [discriminate|]. match goal with S : starts_with_seq [Kind Plus; Not Plus] _ = true |- _ => cbn [starts_with_seq satisfies] in S end. ands. apply (current_LT Plus); auto.
    - intros s' I'. split; [exact Cs|exact (proj2 I')].
    - cbn [app toks adv]. rewrite (Mu Backtick); auto. }
  clear B. destruct (is_k Caret t && _ && _) eqn:B; [ands; apply Span; eauto|].
  clear B. destruct (is_k Backtick t && _ && _) eqn:B; [ands; apply Span; try apply Ctx; eauto|].
  clear B. destruct (is_k Backtick t && _ && _) eqn:B; [ands; apply Span; eauto|].
  clear B. destruct (is_k DoubleQuote t && _ && _ && _) eqn:B; [ands; apply Quote; eauto; [repeat constructor|eapply current_LT; eauto]|].
  clear B. destruct (is_k SingleQuote t && _ && _ && _) eqn:B; [ands; apply Quote; eauto; [repeat constructor|eapply current_LT; eauto]|].
  clear B. destruct (is_k Tilde t && _ && _) eqn:B; [ands; apply Span; eauto|].
  clear B. destruct (is_k Backtick t && _ && _) eqn:B; [ands; apply Simple; eauto; eapply current_LT; eauto|].
  clear B. destruct (is_k DoubleQuote t && _ && _ && _) eqn:B; [ands; apply Simple; eauto; eapply current_LT; eauto|].
  clear B. destruct (is_k Backtick t && _ && _) eqn:B; [ands; apply Simple; eauto; eapply current_LT; eauto|].
  clear B. destruct (is_k SingleQuote t && _ && _ && _) eqn:B; [ands; apply Simple; eauto; eapply current_LT; eauto|].
  clear B. destruct (is_k Hash t && _ && _) eqn:B; [ands; apply Span; try apply Ctx; eauto|].
  clear B. destruct (is_k Hash t && _ && _) eqn:B; [ands; apply Span; try apply Ctx; eauto|].
  clear B. destruct (is_k Ampersand t && _) eqn:B; [ands; apply Wd; eapply Tx; eauto|].
  clear B. destruct (if contains sb0 SpecialChars then special_of (tk t) else None) as [sp|] eqn:B.
  { destruct (contains sb0 SpecialChars); [|discriminate]. apply Node. cbn [node_letters]. symmetry. destruct (tk t) eqn:Tk; try discriminate B; eapply M0; try (apply is_k_refl; exact Tk); reflexivity. }
  clear B. destruct (is_k SingleQuote t && _ && _) eqn:B; [ands; destruct (_ || _); [apply Wd; eapply Tx; eauto|apply Node; symmetry; eapply M0; eauto]|].
  clear B. destruct (is_k Whitespace t && _ && _) eqn:B; [ands; apply Node; symmetry; eapply M0; eauto|].
  clear B. destruct (is_k Whitespace t && _ && _) eqn:B.
  { ands. destruct r as [|u r']; [discriminate|]. cbn [tl]. assert (Lu : LT u = []) by (apply (mute_k Plus); auto; exact (Forall_inv Fr)).
    assert (HX' : X = La a ++ Lts r' ++ Lls ls) by (rewrite (Mu Whitespace), Lts_cons, Lu; auto).
    destruct r' as [|n m].
    - constructor; auto; [cbn [okc]; now apply okls_tail in O|exact Logic.I|]. intros _. rewrite La_node. cbn. now rewrite app_nil_r, HX'.
    - apply keep_next with [u; n]; auto. intros _. rewrite La_node, HX', Lts_cons, (mute_k Newline n), app_nil_r; auto. exact (Forall_inv (Forall_inv_tail Fr)). }
  clear B. destruct (is_k Newline t) eqn:B; [apply Node; symmetry; eapply M0; eauto|].
  clear B. destruct (is_k Discard t || false) eqn:B; [rewrite orb_false_r in B; apply Stay; erewrite M0; eauto; now rewrite app_nil_r|].
  clear B. destruct (is_k Backslash t) eqn:B; [pose proof (Mm _ B eq_refl) as Md; apply keep_backslash; auto; [eapply tx_letters; eauto|exact (Mu _ B eq_refl)]|].
  clear B. destruct (is_k UriScheme t && _ && _) eqn:B; [ands; apply keep_bare; auto; [eapply Mm; eauto|]; cbn [toks adv]; rewrite HX, (Tx UriScheme); auto|].
  clear B. destruct (is_k PreprocPassthru t) eqn:B; [|cbn [push_unused]; apply Wd, LT_plain, B].
  destruct (take_passthru s t) as [[ns s']|] eqn:Tp; [|constructor]. destruct (take_letters _ _ _ _ Tp) as (E' & I' & L'). apply keep_stay; [eapply ext_trans; eassumption|auto|exact O2|]. intros F. rewrite La_node. cbn [node_letters toks adv].
  rewrite HX. unfold LT at 1. rewrite B, (L' F), <- app_assoc. reflexivity.
Qed.
(** a list of attributes before a mark *)
Lemma keep_mark E q s0 X s a at' src vs t r l ls : md = true -> contains sb0 InlineFormatting = true -> calmly sb0 -> ext s0 s -> inv s -> okls (l :: ls) -> toks l = t :: r -> one_of marks t = true ->
  (tk t = Backtick -> match r with x :: _ => one_of [SingleQuote; DoubleQuote] x = false | [] => True end) ->
  X = La a ++ letters src ++ LT t ++ Lts r ++ Lls ls -> keep s0 X (token_step E q sb0 s a (Some (AList at' src vs)) t (adv l r) ls).
Proof.
  intros Md Fm Cs Ex I O T Mk Bt HX. pose proof (okls_toks _ _ O) as Fl. rewrite T in Fl. pose proof (Forall_inv Fl) as Kt. pose proof (Forall_inv_tail Fl) as Fr.
  assert (O2 : okls (adv l r :: ls)) by (apply okls_suffix with [t]; auto). pose proof (Cs Md) as Nc. rewrite Fm in Nc. cbn [andb] in Nc.
  assert (L0 : LT t = [] /\ LT t = letters (tx t)).
  { unfold one_of, marks in Mk. apply existsb_exists in Mk. destruct Mk as (k & Hk & K). assert (K' : is_k k t = true) by exact K.
    repeat (destruct Hk as [<-|Hk]; [split; [eapply mute_k; eauto|eapply LT_kind; eauto]|]). destruct Hk. }
  destruct L0 as [L0 Lx]. rewrite L0 in HX. cbn [app] in HX.
  assert (Fb : keep s0 X (Go s (push_text (tx t) (push_unused (Some (AList at' src vs)) a)) None (Some (adv l r)) ls)).
  { apply keep_stay; auto. intros _. cbn [push_unused alist_src toks adv]. rewrite !La_text, <- Lx, L0, HX, app_nil_r, <- !app_assoc. reflexivity. }
  assert (Span : forall s1 kd q', ext s0 s1 -> inv s1 -> Forall quiet q' -> Lts (firstn (length q' - 1) r) = [] -> keep s0 X (parse_node E s1 a (NSpan kd (Some (AList at' src vs))) same_st None q' (adv l r) ls)).
  { intros s1 kd q' E1 I1 Q Fn. apply keep_node with (Y := letters src); auto. }
  assert (Ctx : forall c, ext s0 (set_ctx c s) /\ inv (set_ctx c s)) by (intros c; split; [exact Ex|exact I]).
  assert (Single : forall k, Lts (firstn (length (single k) - 1) r) = []) by reflexivity.
  assert (Un : forall k, starts_unconstrained k t r ls = true -> existsb (kind_eqb k) mute = true -> Lts (firstn (length (double k) - 1) r) = []).
  { intros k U M. unfold starts_unconstrained in U. ands. cbn. now apply (current_LT k). }
  assert (Q1 : forall k, existsb (kind_eqb k) mute = true -> Forall quiet (single k)) by (intros k M; repeat constructor; exact M).
  assert (Q2 : forall k, existsb (kind_eqb k) mute = true -> Forall quiet (double k)) by (intros k M; repeat constructor; exact M).
  assert (Go1 : forall kk, tk t = kk -> forall k, is_k k t = kind_eqb kk k) by (intros kk <- k; reflexivity).
  unfold token_step. cbv zeta. cbn [toks adv]. rewrite Nc, Fm.
  unfold one_of, marks in Mk. apply existsb_exists in Mk. destruct Mk as (kk & Hk & K). destruct (kind_eqb_spec (tk t) kk) as [Tk|]; [|discriminate]. clear K. pose proof (Go1 kk Tk) as G. rewrite Tk in Bt |- *.
  rewrite !G. clear Go1. cbn [In] in Hk. destruct Hk as [<-|[<-|[<-|[<-|[<-|[<-|[]]]]]]]; cbn [kind_eqb kind_beq andb special_of].
  - destruct (starts_unconstrained Hash t r ls) eqn:B; [apply Span; try apply Ctx; eauto|]. destruct (starts_constrained _ t _ _ r ls); [apply Span; try apply Ctx; eauto|]. destruct (contains sb0 SpecialChars); exact Fb.
  - destruct (starts_constrained _ t _ _ r ls); [apply Span; try apply Ctx; eauto|]. destruct (starts_unconstrained Star t r ls) eqn:B; [apply Span; try apply Ctx; eauto|]. destruct (contains sb0 SpecialChars); exact Fb.
  - destruct (starts_constrained _ t _ _ r ls); [apply Span; try apply Ctx; eauto|]. destruct (starts_unconstrained Underscore t r ls) eqn:B; [apply Span; try apply Ctx; eauto|]. destruct (contains sb0 SpecialChars); exact Fb.
  - destruct (_ && _ && any_seq _ r ls) eqn:B.
    { ands. exfalso. destruct r as [|u r']; [discriminate|]. match goal with S : starts_with_seq [Kind Plus; Not Plus] _ = true |- _ => cbn [starts_with_seq satisfies] in S end. ands.
      destruct (Forall_inv Fr) as (_ & _ & _ & K). rewrite Md in K. destruct K as [[K _] _]. apply K. now apply is_k_eq. }
    clear B. destruct (starts_constrained _ t _ _ r ls); [apply Span; try apply Ctx; eauto|]. destruct (starts_unconstrained Backtick t r ls) eqn:B; [apply Span; eauto|].
    specialize (Bt eq_refl). assert (N1 : current_is DoubleQuote r = false) by (destruct r as [|u r']; [reflexivity|]; unfold one_of in Bt; cbn [existsb] in Bt; rewrite orb_false_r in Bt; apply orb_false_iff in Bt; exact (proj2 Bt)).
    assert (N2 : current_is SingleQuote r = false) by (destruct r as [|u r']; [reflexivity|]; unfold one_of in Bt; cbn [existsb] in Bt; apply orb_false_iff in Bt; exact (proj1 Bt)). rewrite N1, N2. destruct (contains sb0 SpecialChars); exact Fb.
  - destruct (no_ws_until Tilde false r); [apply Span; eauto|]. destruct (contains sb0 SpecialChars); exact Fb.
  - destruct (no_ws_until Caret false r); [apply Span; eauto|]. destruct (contains sb0 SpecialChars); exact Fb.
Qed.
(** ** Passthroughs *)
Lemma term_in_at q c whole l : forall i p j, term_in q c whole i p l = Some j -> exists d, j = i + d /\ starts_with_seq q (skipn d l) = true.
Proof.
  induction l as [|t l IH]; intros i p j E; cbn [term_in] in E; [discriminate|].
  assert (Later : forall p', term_in q c whole (S i) p' l = Some j -> exists d, j = i + d /\ starts_with_seq q (skipn d (t :: l)) = true).
  { intros p' H. destruct (IH _ _ _ H) as (d & -> & D). exists (S d). split; [lia|exact D]. }
  destruct (starts_with_seq q (t :: l)) eqn:S; [|eauto]. assert (Here : Some i = Some j -> exists d, j = i + d /\ starts_with_seq q (skipn d (t :: l)) = true) by (intros H; injection H as <-; exists 0; split; [lia|exact S]).
  destruct p as [p|]; [|discriminate]. destruct (only_spec q p && _); [eauto|]. destruct (_ || _); [discriminate|].
  destruct (match hd_error l with Some n => _ | None => _ end); [eauto|]. destruct (_ && _); [discriminate|]. destruct c; auto. destruct (index_of_seq _ whole); auto. destruct (_ && _); [discriminate|auto].
Qed.
Lemma nth_skip (A : Type) (l : list A) d j : nth_error (skipn d l) j = nth_error l (d + j).
Proof. revert l. induction d as [|d IH]; intros l; [reflexivity|]. destruct l; [destruct j; reflexivity|]. cbn [skipn Nat.add nth_error]. apply IH. Qed.
Lemma nth_app_skip (A : Type) (a b : list A) d x j : nth_error (skipn d b) j = Some x -> nth_error (a ++ b) (length a + d + j) = Some x.
Proof. rewrite nth_skip. intros H. rewrite nth_error_app2 by lia. replace (length a + d + j - length a) with (d + j) by lia. exact H. Qed.
Lemma starts_pluses count l : starts_with_seq (repeat (Kind Plus) count) l = true -> forall j, j < count -> exists x, nth_error l j = Some x /\ tk x = Plus.
Proof.
  revert l. induction count as [|n IH]; intros l S j J; [lia|]. destruct l as [|t l]; [discriminate|]. cbn in S. apply andb_prop in S. destruct S as [S1 S2]. destruct j as [|j]; [exists t; split; [reflexivity|now apply is_k_eq]|].
  apply (IH l S2 j). lia.
Qed.
(** from place [n] on there are [count] plus signs *)
Definition pluses_at (n count : nat) (l : list tok) : Prop := forall j, j < count -> exists x, nth_error l (n + j) = Some x /\ tk x = Plus.
Lemma plus_end_at E count r ls n : count <> 0 -> plus_end E count r ls = Ret (Some n) -> pluses_at n count (r ++ flat_map toks ls).
Proof.
  intros Nz. unfold plus_end. destruct (count =? 1) eqn:C.
  - apply Nat.eqb_eq in C. subst count. assert (One : forall l i, terminates_in [Len 1 Plus] CNone l = Some i -> exists x, nth_error (skipn i l) 0 = Some x /\ tk x = Plus).
    { intros l i H. unfold terminates_in in H. apply term_in_at in H. destruct H as (d & -> & D). cbn [Nat.add]. destruct (skipn d l) as [|x m]; [discriminate|]. exists x. split; [reflexivity|]. cbn in D. ands. now apply is_k_eq. }
    assert (Later : forall ls k n, one_plus_later E k ls = Some n -> forall a, length a = k -> exists x, nth_error (a ++ flat_map toks ls) n = Some x /\ tk x = Plus).
    { induction ls0 as [|l m IH]; intros k n0 H a La; cbn [one_plus_later] in H; [discriminate|]. destruct (at_delimiter E l); [discriminate|]. destruct (terminates_in _ CNone (toks l)) as [i|] eqn:T.
      - injection H as <-. destruct (One _ _ T) as (x & X & P). exists x. split; [|exact P]. cbn [flat_map]. apply nth_app_skip with (a := a) in X. rewrite app_assoc, nth_error_app1.
        + rewrite <- X. f_equal. lia.
        + apply nth_error_Some. replace (k + i) with (length a + i + 0) by lia. congruence.
      - destruct (IH _ _ H (a ++ toks l)) as (x & X & P); [rewrite app_length; lia|]. exists x. split; [|exact P]. cbn [flat_map]. now rewrite app_assoc. }
    intros H j J. assert (j = 0) as -> by lia. rewrite Nat.add_0_r. destruct (current_is Newline r); [discriminate|]. destruct (terminates_in _ CNone r) as [i|] eqn:T.
    + injection H as <-. destruct (One _ _ T) as (x & X & P). exists x. split; [|exact P]. rewrite nth_skip, Nat.add_0_r in X. rewrite nth_error_app1; [exact X|]. apply nth_error_Some. congruence.
    + injection H as H. exact (Later _ _ _ H r eq_refl).
  - destruct (3 <? count); [discriminate|]. intros H.
    assert (Seq : forall l i j a b, index_of_seq (repeat (Kind Plus) count) l = Some i -> j < count -> exists x, nth_error (a ++ l ++ b) (length a + i + j) = Some x /\ tk x = Plus).
    { intros l i j a b Ix J. apply first_index_seq in Ix. destruct (starts_pluses _ _ Ix j J) as (x & X & P). exists x. split; [|exact P]. apply nth_app_skip with (a := a) in X. rewrite app_assoc, nth_error_app1; [exact X|].
      apply nth_error_Some. congruence. }
    assert (Later : forall ls n0 k n, plus_later E (repeat (Kind Plus) count) n0 k ls = Some n -> forall a, length a = k -> forall j, j < count -> exists x, nth_error (a ++ flat_map toks ls) (n + j) = Some x /\ tk x = Plus).
    { induction ls0 as [|l m IH]; intros n0 k n1 H1 a La j J; cbn [plus_later] in H1; [discriminate|]. destruct (at_delimiter E l); [discriminate|]. destruct (index_of_seq _ (toks l)) as [i|] eqn:Ix.
      - destruct (_ && _); [discriminate|]. injection H1 as <-. cbn [flat_map]. rewrite <- La. exact (Seq _ _ _ a _ Ix J).
      - destruct (IH _ _ _ H1 (a ++ toks l) ltac:(rewrite app_length; lia) j J) as (x & X & P). exists x. split; [|exact P]. cbn [flat_map]. now rewrite app_assoc. }
    intros j J. destruct (index_of_seq _ r) as [i|] eqn:Ix; injection H as H.
    + subst i. exact (Seq _ _ _ [] _ Ix J).
    + exact (Later _ _ _ _ H r eq_refl j J).
Qed.
Section passthroughs.
Definition with_passthroughs : Prop := md = false.
Hypothesis Md : with_passthroughs.
Lemma okls_B ls : Forall (fun l => Forall (okt md) (toks l)) ls -> okls ls.
Proof. intros F. split; [|intros M; exfalso; rewrite (Md : md = false) in M; discriminate]. eapply Forall_impl; [|exact F]. intros l H. split; [exact H|]. intros M. exfalso. rewrite (Md : md = false) in M. discriminate. Qed.
Lemma okls_all ls : okls ls -> Forall (fun l => Forall (okt md) (toks l)) ls.
Proof. intros [F _]. eapply Forall_impl; [|exact F]. intros l [H _]. exact H. Qed.
Lemma inv_B s : inv s.
Proof. split; [intros M|intros M]; exfalso; rewrite (Md : md = false) in M; discriminate. Qed.
Lemma Lls_flat ls : Lls ls = Lts (flat_map toks ls).
Proof. induction ls as [|l ls IH]; [reflexivity|]. cbn [flat_map]. rewrite Lls_cons, Lts_app, IH. reflexivity. Qed.
Lemma take_pass_ok ls : forall n l done pls l2 ls2, take_pass n l ls done = Ret (pls, l2, ls2) -> Forall (fun l => Forall (okt md) (toks l)) (l :: ls) -> Forall (fun l => Forall (okt md) (toks l)) done ->
  exists p rest, toks l ++ flat_map toks ls = p ++ rest ++ flat_map toks ls2 /\ length p = n /\ toks l2 = skipn 1 rest /\ Lls pls = Lls done ++ Lts p /\ Forall (okt md) rest /\ okls pls /\ okls ls2.
Proof.
  induction ls as [|l' ls IH]; intros n l done pls l2 ls2 E F D; cbn [take_pass] in E; destruct (n <=? length (toks l)) eqn:N.
  1, 3: apply Nat.leb_le in N; injection E as <- <- <-; exists (firstn n (toks l)), (skipn n (toks l)); pose proof (Forall_inv F) as Fl; cbn beta in Fl;
    split; [rewrite app_assoc, firstn_skipn; reflexivity|]; split; [now apply firstn_length_le|]; split; [cbn [toks adv]; destruct n as [|n]; [now destruct (toks l)|]; clear; generalize (toks l); intros x; revert x; induction n as [|n IHn]; intros x; [destruct x as [|? [|]]; reflexivity|destruct x; [reflexivity|]; apply IHn]|];
    split; [unfold Lls; rewrite flat_map_app; cbn; now rewrite app_nil_r|]; split; [eapply seg_Forall; [apply seg_skipn|exact Fl]|]; split; [|apply okls_B; exact (Forall_inv_tail F)];
    apply okls_B; apply Forall_app; split; [exact D|]; constructor; [|constructor]; eapply seg_Forall; [apply seg_firstn|exact Fl].
  - discriminate.
  - apply Nat.leb_gt in N. pose proof (Forall_inv F) as Fl. cbn beta in Fl. destruct (IH _ _ _ _ _ _ E (Forall_inv_tail F)) as (p & rest & A1 & A2 & A3 & A4 & A5 & A6 & A7).
    + destruct (toks l) as [|x xs] eqn:Tl; [exact D|]. apply Forall_app. split; [exact D|]. constructor; [|constructor]. exact Fl.
    + exists (toks l ++ p), rest. cbn [flat_map]. split; [rewrite A1, <- app_assoc; reflexivity|]. split; [rewrite app_length; lia|]. split; [exact A3|]. split; [|auto].
      rewrite A4, Lts_app. destruct (toks l) as [|x xs] eqn:Tl; [reflexivity|]. unfold Lls at 1. rewrite flat_map_app. cbn [flat_map toks new_line]. rewrite app_nil_r, app_assoc. reflexivity.
Qed.
Lemma plus_letters k rest : Forall (okt md) rest -> (forall j x, j < k -> nth_error rest j = Some x -> tk x = Plus) -> Lts (firstn k rest) = [].
Proof.
  revert k. induction rest as [|t rest IH]; intros k F H; [destruct k; reflexivity|]. destruct k as [|k]; [reflexivity|]. cbn [firstn]. rewrite Lts_cons.
  rewrite (mute_k Plus t (Forall_inv F)); [|apply is_k_refl; apply (H 0); [lia|reflexivity]|reflexivity]. apply IH; [exact (Forall_inv_tail F)|]. intros j x J X. apply (H (S j)); [lia|exact X].
Qed.
Lemma plus_run_le r : plus_run r <= length r.
Proof. induction r as [|t r IH]; [reflexivity|]. cbn [plus_run]. destruct (is_k Plus t); cbn [length]; lia. Qed.
Lemma plus_run_letters r : Forall (okt md) r -> Lts (firstn (plus_run r) r) = [].
Proof. induction 1 as [|t r K F IH]; [reflexivity|]. cbn [plus_run]. destruct (is_k Plus t) eqn:P; [|reflexivity]. cbn [firstn]. now rewrite Lts_cons, IH, (mute_k Plus t K P eq_refl). Qed.
Lemma keep_replace E f : forall s0 X s done prev skip l ls k, ext s0 s -> Forall (okt md) done -> okls (l :: ls) ->
  (forall s' ls', ext s s' -> okls ls' -> (fine s' -> Lts done ++ Lts (toks l) ++ Lls ls = Lls ls') -> keep s0 X (k s' ls')) -> keep s0 X (replace_pass f E s done prev skip l ls k).
Proof.
  induction f as [|f IH]; intros s0 X s done prev skip l ls k Ex Fd O K; pose proof (okls_toks _ _ O) as Fl; cbn [replace_pass]; destruct (toks l) as [|t r] eqn:T.
  1, 3: apply K; [apply ext_refl|apply okls_B; pose proof (okls_all _ (okls_tail _ _ O)) as H; unfold restore; cbn [toks new_line]; destruct done; [exact H|constructor; [exact Fd|exact H]]|intros _; rewrite Lls_restore; reflexivity].
  { constructor. }
  cbv zeta. pose proof (Forall_inv Fl) as Kt. pose proof (Forall_inv_tail Fl) as Fr. assert (O2 : okls (adv l r :: ls)) by (apply okls_suffix with [t]; auto).
  assert (Same : forall prev skip, keep s0 X (replace_pass f E s (done ++ [t]) prev skip (adv l r) ls k)).
  { intros prev' skip'. apply IH; [exact Ex|apply Forall_app; split; [exact Fd|now constructor]|exact O2|]. intros s' ls' E' O' L. apply K; auto. intros F. rewrite <- (L F). cbn [toks adv]. rewrite Lts_app, !Lts_cons, <- !app_assoc. reflexivity. }
  destruct skip as [|skip]; [|apply Same]. destruct (is_k MacroName t && _) eqn:B.
  { exfalso. ands. pose proof (in_macros MacroName t Kt ltac:(assumption) eq_refl) as M. rewrite (Md : md = false) in M. discriminate. }
  clear B. destruct (is_k Plus t && could_be_plus prev r) eqn:B; [|apply Same]. ands. apply keep_try. intros o Pe. destruct o as [n|]; [|apply Same].
  apply plus_end_at in Pe; [|discriminate]. unfold pass_placeholder. cbv zeta. cbn [toks adv]. set (c := plus_run r) in *. replace (S c - 1) with c by lia. destruct (n <? c) eqn:Nc; [constructor|]. apply Nat.ltb_ge in Nc.
  apply keep_try. intros [[pls l2] ls2] Tp. apply take_pass_ok in Tp; [|constructor; [cbn [toks adv]; eapply seg_Forall; [apply seg_skipn|exact Fr]|exact (okls_all _ (okls_tail _ _ O))]|constructor].
  destruct Tp as (p & rest & A1 & A2 & A3 & A4 & A5 & A6 & A7). cbn [toks adv] in A1. cbn [Lls flat_map app] in A4.
  assert (Lr : Lts (firstn (S c) rest) = []).
  { apply plus_letters; [exact A5|]. intros j x J Nx. destruct (Pe j J) as (y & Y & P). assert (Z : nth_error (skipn c r ++ flat_map toks ls) (n - c + j) = Some x).
    { rewrite A1, nth_error_app2 by lia. rewrite nth_error_app1; [|apply nth_error_Some; replace (n - c + j - length p) with j by lia; congruence]. rewrite <- Nx. f_equal. lia. }
    assert (Z' : nth_error (r ++ flat_map toks ls) (n + j) = Some x).
    { rewrite <- (firstn_skipn c r) at 1. rewrite <- app_assoc, nth_error_app2 by (rewrite firstn_length; lia). rewrite <- Z. f_equal. rewrite firstn_length_le by apply plus_run_le. lia. }
    congruence. }
  destruct (rev pls) as [|ql pr] eqn:Rv; [constructor|]. destruct (toks ql) as [|t0 tr]; [constructor|].
  apply keep_call; [exact Ex|apply inv_B|exact A6|constructor|]. intros ns s' ls' E' I' O' Q L. rewrite (Q eq_refl) in L. cbn [Lls flat_map] in L. rewrite app_nil_r in L.
  set (s2 := set_pass _ _). assert (E2 : ext s' s2) by (split; [exists [ns]; cbn; now rewrite map_app|exists []; cbn; now rewrite app_nil_r]).
  set (ph := TokI PreprocPassthru _ _). assert (Kp : okt md ph).
  { split; [split; [discriminate|discriminate]|]. split; [reflexivity|]. split; [intros [Z _]; discriminate|]. rewrite (Md : md = false). split; [reflexivity|]. intros _. reflexivity. }
  apply IH; [eapply ext_trans; [exact Ex|]; eapply ext_trans; eassumption|apply Forall_app; split; [exact Fd|now constructor]| |].
  - apply okls_B. constructor; [|exact (okls_all _ A7)]. cbn [toks adv]. rewrite A3. eapply seg_Forall; [apply seg_skipn|]. eapply seg_Forall; [apply seg_skipn|exact A5].
  - intros s3 ls3 E3 O3 L3. apply K; [eapply ext_trans; [exact E'|]; eapply ext_trans; [exact E2|exact E3]|exact O3|]. intros F. specialize (L3 F). rewrite <- L3. cbn [toks adv]. pose proof (ext_fine _ _ E3 F) as F2.
    assert (Lp : LT ph = all_letters ns).
    { change (V (length (pass_of s')) = all_letters ns). apply (proj1 F2 (length (pass_of s')) (ns, false)). cbn. rewrite nth_error_app2 by lia. now rewrite Nat.sub_diag. }
    rewrite Lts_app, !Lts_cons. cbn [Lts flat_map]. rewrite app_nil_r, <- !app_assoc. f_equal. rewrite Lp, <- (L (ext_fine _ _ E2 F2)), A4, (mute_k Plus t Kt) by auto. cbn [app].
    replace (skipn c (toks l2)) with (skipn (S c) rest) by (rewrite A3; destruct rest; [destruct c; reflexivity|reflexivity]).
    change (Lts r ++ Lls ls = Lts p ++ Lts (skipn (S c) rest) ++ Lls ls2). rewrite <- (firstn_skipn c r) at 1. unfold c at 1. rewrite Lts_app, (plus_run_letters r Fr). cbn [app]. fold c.
    rewrite (Lls_flat ls), <- Lts_app, A1, !Lts_app, <- Lls_flat. do 1 f_equal. rewrite <- (firstn_skipn (S c) rest) at 1. rewrite Lts_app, Lr. reflexivity.
Qed.
End passthroughs.
(** ** One step *)
Lemma stop_letters q : forall l, Forall quiet q -> Forall (okt md) l -> starts_with_seq q l = true -> Lts (firstn (length q) l) = [].
Proof.
  induction q as [|x q IH]; intros l Q F S; [reflexivity|]. destruct l as [|t l]; [discriminate|]. cbn in S. ands. cbn [length firstn]. rewrite Lts_cons, (IH l); [|exact (Forall_inv_tail Q)|exact (Forall_inv_tail F)|assumption].
  pose proof (Forall_inv Q) as Qx. pose proof (Forall_inv F) as Kt. rewrite app_nil_r. destruct x; cbn [quiet satisfies] in *; try contradiction; ands; eapply mute_k; eauto.
Qed.
Lemma keep_step E s0 s a ia cur ls : (forall l, stops E l = false) -> Forall quiet q0 -> dbg E = true -> biblio_list E = false -> calmly sb0 -> ext s0 s -> inv s -> okc cur ls -> pend ia cur ->
  keep s0 (La a ++ Lia ia ++ Lcur cur ++ Lls ls) (step E q0 sb0 s a ia cur ls).
Proof.
  intros St Q Db Bib Cs Ex I O P. unfold step. destruct cur as [l|].
  - cbn [okc Lcur] in *. pose proof (okls_toks _ _ O) as Fl. destruct (at_stop q0 (toks l)) eqn:As.
    + assert (Ss : starts_with_seq q0 (toks l) = true /\ q0 <> []) by (unfold at_stop in As; destruct q0; [discriminate|split; [exact As|discriminate]]). constructor; [exact Ex|exact I| |intros Z; destruct (proj2 Ss Z)|].
      * apply okls_restore, okls_suffix with (firstn (length q0) (toks l)); [exact O|now rewrite firstn_skipn].
      * intros _. rewrite finish_letters, La_commit, Lls_restore. cbn [toks adv]. rewrite <- (firstn_skipn (length q0) (toks l)) at 1. rewrite Lts_app, (stop_letters q0 _ Q Fl (proj1 Ss)), <- !app_assoc. reflexivity.
    + apply keep_try. intros b Mp. destruct b.
      * assert (Md : md = false).
        { destruct md eqn:M; [|reflexivity]. exfalso. destruct O as [O _]. destruct (Forall_inv O) as [_ H]. destruct (H M) as [H1 H2]. unfold may_contain_pass in Mp. rewrite H1, H2 in Mp. discriminate. }
        assert (ia = None) as -> by (destruct ia as [[? ? ?|?]|]; [destruct P as [P _]; congruence|destruct P|reflexivity]).
        apply keep_replace; auto using ext_refl. intros s' ls' E' O' L. constructor; [eapply ext_trans; eassumption|now apply inv_B|exact O'|exact Logic.I|]. intros F. cbn [Lia Lcur app]. rewrite <- (L F). reflexivity.
      * destruct (toks l) as [|t r] eqn:T.
        -- assert (ia = None) as -> by (destruct ia as [[? ? ?|?]|]; [destruct P as (_ & _ & l' & t & r & C & T' & _); injection C as <-; congruence|destruct P|reflexivity]).
           constructor; [exact Ex|exact I|exact (okls_tail _ _ O)|exact Logic.I|]. intros _. rewrite La_join. reflexivity.
        -- destruct ia as [[at' src vs|?]|]; [|destruct P|].
           ++ destruct P as (Md & Fm & l' & t' & r' & C & T' & Mk & Bt). injection C as <-. rewrite T in T'. injection T' as <- <-. apply keep_mark; auto. cbn [Lia alist_src]. rewrite Lts_cons, <- !app_assoc. reflexivity.
           ++ apply keep_token; auto. cbn [Lia app]. rewrite Lts_cons, <- !app_assoc. reflexivity.
  - assert (ia = None) as -> by (destruct ia as [[? ? ?|?]|]; [destruct P as (_ & _ & l' & t & r & C & _); discriminate|destruct P|reflexivity]). cbn [okc Lcur Lia app] in *. destruct ls as [|l ls].
    + constructor; [exact Ex|exact I|exact O|reflexivity|]. intros _. rewrite finish_letters. cbn. now rewrite !app_nil_r.
    + rewrite St. destruct (is_comment l && _) eqn:C.
      { exfalso. ands. unfold is_comment in H. ands. pose proof (okls_toks _ _ O) as Fl. destruct (toks l) as [|t r]; [discriminate|]. match goal with S : starts_with_seq _ _ = true |- _ => cbn in S end. ands.
        destruct (Forall_inv Fl) as (_ & _ & N & _). apply N. split; [now apply is_k_eq|]. match goal with L : len_is 2 _ = true |- _ => unfold len_is in L; now apply Nat.eqb_eq in L end. }
      constructor; [exact Ex|exact I|exact O|exact Logic.I|]. intros _. cbn [Lia Lcur app]. reflexivity.
Qed.
End letters.

(** ** All steps *)
Lemma go_letters V md E : (forall l, stops E l = false) -> dbg E = true -> biblio_list E = false -> forall f q sb s a ia cur ls s' ns ls',
  go f E q sb s a ia cur ls = Done s' ns ls' -> Forall quiet q -> calmly md sb -> inv md s -> okc md cur ls -> pend md sb ia cur ->
  ext s s' /\ inv md s' /\ okls md ls' /\ (q = [] -> ls' = []) /\ (fine V s' -> La a ++ Lia ia ++ Lcur V cur ++ Lls V ls = all_letters ns ++ Lls V ls').
Proof.
  intros St Db Bib. induction f as [|f IH]; intros q sb s a ia cur ls s' ns ls' G Q Cs I O P; [discriminate|].
  pose proof (keep_step V md sb q E s s a ia cur ls St Q Db Bib Cs (ext_refl s) I O P) as K. cbn [go] in G. revert G. induction K as [| |s1 ns1 ls1 E1 I1 O1 Q1 L1|s1 a1 ia1 cur1 ls1 E1 I1 O1 P1 L1|s1 q1 ls1 k E1 I1 O1 Q1 K1 IHk].
  - discriminate.
  - discriminate.
  - intros G. injection G as <- <- <-. auto.
  - intros G. destruct (IH _ _ _ _ _ _ _ _ _ _ G Q Cs I1 O1 P1) as (A1 & A2 & A3 & A4 & A5). split; [eapply ext_trans; eassumption|]. split; [exact A2|]. split; [exact A3|]. split; [exact A4|].
    intros F. rewrite (L1 (ext_fine _ _ _ A1 F)). exact (A5 F).
  - destruct ls1 as [|l1 m1]; [intros G; apply (IHk [] s1 []); auto using ext_refl, okls_nil|]. destruct (toks l1) as [|t1 r1] eqn:T; [discriminate|]. destruct (go f E q1 (subs_of s1) s1 acc0 None None (l1 :: m1)) as [s2 ns2 ls2| |] eqn:G2; try discriminate.
    destruct (IH _ _ _ _ _ _ _ _ _ _ G2 Q1 (proj1 I1) I1 O1 Logic.I) as (A1 & A2 & A3 & A4 & A5). intros G. apply (IHk ns2 s2 ls2); auto.
Qed.

(** ** From the lines of a text *)
Definition Vof (s : st) (i : nat) : bytes := match nth_error (pass_of s) i with Some (ns, _) => all_letters ns | None => [] end.
Lemma fine_Vof s : ~ In TooManyTerms (errs_of s) -> fine (Vof s) s.
Proof. intros N. split; [|exact N]. intros i [ns b] H. unfold Vof. now rewrite H. Qed.
Lemma left_eq s ls : left_letters s ls = Lls (Vof s) ls.
Proof. reflexivity. Qed.
Lemma okl_lines md tss : Forall (Forall (okt md)) tss -> Forall (okl md) (map line_of tss) /\ flat_map toks (map line_of tss) = concat tss.
Proof.
  induction 1 as [|ts tss F Fs [IH1 IH2]]; [split; [constructor|reflexivity]|]. destruct (push_toks md ts (new_line []) (okl_empty md) F) as [A B].
  split; [constructor; assumption|]. cbn [map flat_map concat]. rewrite IH2. f_equal. exact B.
Qed.
Lemma start_letters V l : Forall ordinary l -> Lts V l = letters (concat (map tx l)).
Proof.
  induction 1 as [|t l [O _] F IH]; [reflexivity|]. rewrite Lts_cons. cbn [map concat]. rewrite letters_app, IH. f_equal. unfold LT. unfold one_of in O. cbn in O. apply Bool.orb_false_iff in O as [_ O]. apply Bool.orb_false_iff in O as [_ O]. apply Bool.orb_false_iff in O as [O _].
  unfold is_k. now rewrite O.
Qed.
Lemma parse_letters md E q s tss fuel s' ns ls' : (forall l, stops E l = false) -> dbg E = true -> biblio_list E = false -> Forall quiet q -> inv md s -> Forall (Forall ordinary) tss -> Forall (Forall (okt md)) tss ->
  (md = true -> calm (concat tss)) -> parse_inlines_until fuel E q s (map line_of tss) = Done s' ns ls' -> ~ In TooManyTerms (errs_of s') ->
  letters (concat (map tx (concat tss))) = all_letters ns ++ left_letters s' ls' /\ (q = [] -> ls' = []).
Proof.
  intros St Db Bib Q I Or Ok Cm P N. destruct (okl_lines md tss Ok) as [A B]. rewrite left_eq. rewrite <- (start_letters (Vof s')) by now apply Forall_concat. rewrite <- B.
  rewrite <- Lls_flat.
  assert (O : okls md (map line_of tss)) by (split; [exact A|intros M; rewrite B; auto]).
  unfold parse_inlines_until in P. destruct (map line_of tss) as [|l m] eqn:T; [injection P as <- <- <-; split; [reflexivity|auto]|]. destruct (toks l) as [|t r] eqn:Tl; [discriminate|].
  destruct (go_letters (Vof s') md E St Db Bib fuel q (subs_of s) s acc0 None None (l :: m) s' ns ls') as (_ & _ & _ & C & D); auto; [exact (proj1 I)|exact Logic.I|].
  split; [|exact C]. exact (D (fine_Vof s' N)).
Qed.
