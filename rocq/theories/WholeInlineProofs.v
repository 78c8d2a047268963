(** What the inline parser makes of the lines of a paragraph of words (C67). *)
From Verif Require Import Base Utf8 LexerModel LineModel SubsModel InlineModel InlineSpec InlineTermSpec InlineTermProofs WholeModel WholeSpec WholeLexProofs WholePieceProofs.
Import ListNotations.
Open Scope list_scope.
Open Scope nat_scope.

(** ** What nodes show *)
Definition special_html (k : special_kind) : bytes := match k with SAmpersand => $"&amp;" | SLessThan => $"&lt;" | SGreaterThan => $"&gt;" end.
Definition style_of (k : span_kind) : style := match k with Bold => Strong | Italic => Emphasis | _ => Code end.
Fixpoint node_html (nl : bytes) (n : inode) : bytes :=
  match n with
  | NText x => x
  | NNewline => nl
  | NSpecial k => special_html k
  | NSpan k _ ns => $"<" ++ tag (style_of k) ++ $">" ++ concat (map (node_html nl) ns) ++ $"</" ++ tag (style_of k) ++ $">"
  | _ => []
  end.
Definition good (n : inode) : bool :=
  match n with NText _ | NNewline | NSpecial _ => true | NSpan (Bold | Italic | Mono) None [NText _] => true | _ => false end.
Definition nodes_html (nl : bytes) (ns : list inode) : bytes := concat (map (node_html nl) ns).
Definition shows (nl : bytes) (a : accum) : bytes := nodes_html nl (nodes_of a) ++ text a.
Definition fine (a : accum) : Prop := forallb good (nodes_of a) = true.
Lemma nodes_html_app nl x y : nodes_html nl (x ++ y) = nodes_html nl x ++ nodes_html nl y.
Proof. unfold nodes_html. now rewrite map_app, concat_app. Qed.
Lemma add_text_html nl ns x : nodes_html nl (add_text ns x) = nodes_html nl ns ++ x.
Proof.
  unfold add_text. destruct x as [|c x]; [now rewrite app_nil_r|]. assert (D : nodes_html nl (ns ++ [NText (c :: x)]) = nodes_html nl ns ++ c :: x) by (rewrite nodes_html_app; unfold nodes_html at 2; cbn; now rewrite app_nil_r).
  destruct (rev ns) as [|n r] eqn:R; [exact D|]. destruct n; try exact D. apply (f_equal (@rev _)) in R. rewrite rev_involutive in R. cbn [rev] in R. rewrite R, !nodes_html_app. unfold nodes_html at 2 4. cbn. now rewrite !app_nil_r, <- app_assoc.
Qed.
Lemma add_text_good ns x : forallb good ns = true -> forallb good (add_text ns x) = true.
Proof.
  intros H. unfold add_text. destruct x as [|c x]; [exact H|]. assert (D : forallb good (ns ++ [NText (c :: x)]) = true) by (rewrite forallb_app, H; reflexivity).
  destruct (rev ns) as [|n r] eqn:R; [exact D|]. destruct n; try exact D. apply (f_equal (@rev _)) in R. rewrite rev_involutive in R. cbn [rev] in R. rewrite R, forallb_app in H. apply andb_true_iff in H as [H _]. rewrite forallb_app, H. reflexivity.
Qed.
Lemma text_shows nl x a : shows nl (push_text x a) = shows nl a ++ x.
Proof. unfold shows. cbn. now rewrite app_assoc. Qed.
Lemma text_fine x a : fine a -> fine (push_text x a).
Proof. exact (fun H => H). Qed.
Lemma node_shows nl n a : shows nl (push_node n a) = shows nl a ++ node_html nl n.
Proof. unfold shows, push_node, commit. cbn [nodes_of text]. rewrite nodes_html_app, add_text_html, app_nil_r. f_equal. unfold nodes_html. cbn. apply app_nil_r. Qed.
Lemma node_fine n a : fine a -> good n = true -> fine (push_node n a).
Proof. unfold fine, push_node, commit. cbn [nodes_of text]. intros H G. rewrite forallb_app, add_text_good by exact H. cbn. now rewrite G. Qed.
Lemma commit_shows nl a : shows nl (commit a) = shows nl a.
Proof. unfold shows, commit. cbn [nodes_of text]. now rewrite add_text_html, app_nil_r. Qed.
Lemma push_commit n a : push_node n (commit a) = push_node n a.
Proof. reflexivity. Qed.
Lemma joining_fine a l ls : fine a -> joining_newline a (l :: ls) = push_node NNewline a.
Proof.
  intros F. unfold joining_newline. pose proof (add_text_good _ (text a) F) as G. cbn [commit nodes_of]. destruct (rev (add_text (nodes_of a) (text a))) as [|n r] eqn:R; [apply push_commit|].
  destruct n; try apply push_commit. exfalso. apply (f_equal (@rev _)) in R. rewrite rev_involutive in R. cbn [rev] in R. rewrite R, forallb_app in G. cbn in G. rewrite andb_false_r in G. discriminate.
Qed.
Lemma finish_fine a : fine a -> (forall nl, nodes_html nl (finish a None) = shows nl a) /\ forallb good (finish a None) = true.
Proof.
  intros F. unfold finish. cbn [push_unused]. pose proof (add_text_good _ (text a) F) as G. cbn [commit nodes_of]. set (ns := add_text (nodes_of a) (text a)) in *.
  assert (T : trimmed (length ns) (rev ns) = rev ns).
  { destruct (rev ns) as [|n r] eqn:R; [now destruct (length ns)|]. apply (f_equal (@rev _)) in R. rewrite rev_involutive in R. cbn [rev] in R. rewrite R, forallb_app in G. cbn in G. rewrite andb_true_r in G. apply andb_true_iff in G as [_ G].
    destruct (length ns); [reflexivity|]. destruct n; first [reflexivity|discriminate G]. }
  rewrite T, rev_involutive. split; [|exact G]. intros nl. unfold ns. now rewrite add_text_html.
Qed.

(** ** Runs *)
Section Runs.
Variable E : env.
Definition ends (q : list tspec) (sb : subs) (s : st) (a : accum) (cur : option iline) (ls : list iline) (r : ires) : Prop := r <> Loops /\ exists n, go n E q sb s a None cur ls = r.
Lemma ends_go q sb s a cur ls s' a' cur' ls' r : step E q sb s a None cur ls = Go s' a' None cur' ls' -> ends q sb s' a' cur' ls' r -> ends q sb s a cur ls r.
Proof. intros S [N [n H]]. split; [exact N|]. exists (Datatypes.S n). cbn [go]. rewrite S. exact H. Qed.
Lemma ends_fin q sb s a cur ls s' ns ls' : step E q sb s a None cur ls = Fin s' ns ls' -> ends q sb s a cur ls (Done s' ns ls').
Proof. intros S. split; [discriminate|]. exists 1. cbn [go]. now rewrite S. Qed.
Lemma ends_call q sb s a cur ls s1 q1 l1 ls1 k s2 ns ls2 s' a' cur' ls' r :
  step E q sb s a None cur ls = Call s1 q1 (l1 :: ls1) k -> toks l1 <> [] -> ends q1 (subs_of s1) s1 acc0 None (l1 :: ls1) (Done s2 ns ls2) -> k ns s2 ls2 = Go s' a' None cur' ls' ->
  ends q sb s' a' cur' ls' r -> ends q sb s a cur ls r.
Proof.
  intros S T [N1 [n1 H1]] K [N [n H]]. split; [exact N|]. exists (Datatypes.S (Nat.max n1 n)). cbn [go]. rewrite S. destruct (toks l1); [easy|].
  rewrite (go_more E n1) by (try rewrite H1; try discriminate; lia). rewrite H1, K. rewrite (go_more E n) by (try rewrite H; try exact N; lia). exact H.
Qed.

(** nothing stops at a line that starts with an ordinary token *)
Definition ordinary : list kind := [Word; Digits; Whitespace; Comma; Dots; Bang; QuestionMark; Ampersand; LessThan; GreaterThan; Star; Underscore; Backtick].
Definition ordinary_start (l : list tok) : bool := match l with t :: _ => existsb (kind_eqb (tk t)) ordinary | [] => false end.
Hypothesis free : forall l, ordinary_start (toks l) = true -> stops E l = false.

Lemma kind_eqb_eq x y : kind_eqb x y = true -> x = y.
Proof. destruct x, y; first [reflexivity|discriminate]. Qed.
Lemma enter q sb s a l ls r : ordinary_start (toks l) = true -> ends q sb s a (Some l) ls r -> ends q sb s a None (l :: ls) r.
Proof.
  intros O H. eapply ends_go; [|exact H]. cbn [step]. rewrite (free l O). replace (is_comment l) with false; [reflexivity|]. symmetry. unfold is_comment, ordinary_start in *. destruct (toks l) as [|t m]; [discriminate|].
  cbn [starts_with_seq satisfies]. apply existsb_exists in O as (k & I & K). apply kind_eqb_eq in K. cbn in I. apply andb_false_intro2. apply andb_false_intro1. clear - I K. subst k. decompose [or] I; try contradiction; (match goal with H : _ = tk t |- _ => unfold is_k; rewrite <- H; reflexivity end).
Qed.
Definition mild (l : iline) : Prop := passm l = false /\ pluses l = 0.
Lemma at_token q sb s a t r l ls : mild l -> toks l = t :: r -> at_stop q (toks l) = false -> step E q sb s a None (Some l) ls = token_step E q sb s a None t (adv l r) ls.
Proof. intros [M1 M2] T A. cbn [step]. rewrite A. unfold may_contain_pass. rewrite M1, M2. cbn [negb andb Nat.eqb try]. now rewrite T. Qed.

(** ** Single tokens. Formatting and replacements are on; nothing is set. *)
Definition textual (k : kind) (x : bytes) (r : list tok) : Prop :=
  k = Word \/ k = Digits \/ k = Comma \/ k = Bang \/ k = QuestionMark \/ k = Dots /\ length x = 1 \/ k = Whitespace /\ length x = 1 /\ current_is Plus r = false.
Lemma token_text q s a k x i l ls : textual k x (toks l) -> token_step E q normal s a None (TokI k x i) l ls = Go s (push_text x a) None (Some l) ls.
Proof.
  intros [->|[->|[->|[->|[->|[[-> L]|[-> [L P]]]]]]]]; [reflexivity..| |]; unfold token_step; cbn [tk tx inf]; rewrite L; [reflexivity|]. rewrite P. reflexivity.
Qed.
Definition before_phrase (b : option ascii) : Prop := b = None \/ b = Some " "%char \/ b = Some LF.
(** what may follow a phrase: punctuation, a space, nothing *)
Definition follows (r : list tok) : bool := match r with [] => true | t :: _ => existsb (kind_eqb (tk t)) [Whitespace; Comma; Dots; Bang; QuestionMark] end.
Lemma follows_inv r : follows r = true -> r = [] \/ exists t m, r = t :: m /\ In (tk t) [Whitespace; Comma; Dots; Bang; QuestionMark].
Proof. destruct r as [|t m]; [now left|]. cbn [follows]. intros H. right. exists t, m. split; [reflexivity|]. apply existsb_exists in H as (k & I & K). apply kind_eqb_eq in K. now rewrite K. Qed.
Definition special_of_char (c : ascii) : special_kind := if Ascii.eqb c "&" then SAmpersand else if Ascii.eqb c "<" then SLessThan else SGreaterThan.
Lemma token_special q s a c i l ls : phrase_ok (Special c) = true -> follows (toks l) = true ->
  token_step E q normal s a None (TokI (special_kind_of c) [c] i) l ls = Go s (push_node (NSpecial (special_of_char c)) a) None (Some l) ls.
Proof.
  cbn [phrase_ok]. intros H F. apply among in H. cbn [In] in H. apply follows_inv in F.
  destruct l as [r o pm pl]. cbn [toks] in F. destruct F as [->|(t & m & -> & I)].
  - decompose [or] H; try contradiction; subst c; reflexivity.
  - destruct t as [k x j]. cbn [tk In] in I. decompose [or] I; try contradiction; subst k; (decompose [or] H; try contradiction; subst c; reflexivity).
Qed.

(** ** Runs of text *)
Definition plain_piece (x : piece) : bool :=
  match fst x with Word | Digits | Comma | Bang | QuestionMark => true | Dots | Whitespace => length (snd x) =? 1 | _ => false end.
Definition quiet (q : list tspec) : Prop := q = [] \/ exists st, q = [Kind (mark_kind st)].
Lemma quiet_plain q k x i r : quiet q -> plain_piece (k, x) = true -> at_stop q (TokI k x i :: r) = false.
Proof. intros [->|[st ->]] P; [reflexivity|]. unfold plain_piece in P. cbn [fst] in P. destruct k; try discriminate P; destruct st; reflexivity. Qed.
Lemma push_text_nil a : push_text [] a = a.
Proof. destruct a as [ns x]. unfold push_text. cbn. now rewrite app_nil_r. Qed.
Lemma push_text_app x y a : push_text y (push_text x a) = push_text (x ++ y) a.
Proof. unfold push_text. cbn. now rewrite app_assoc. Qed.
Lemma adv_same l rest : toks l = rest -> adv l rest = l.
Proof. intros <-. now destruct l. Qed.
Lemma lay_plus p prev l rest : forallb plain_piece l = true -> current_is Plus rest = false -> current_is Plus (lay p prev l ++ rest) = false.
Proof. destruct l as [|[k x] l]; [easy|]. cbn [forallb]. intros H _. apply andb_true_iff in H as [H _]. cbn [lay app]. unfold plain_piece in H. cbn [fst] in H. destruct k; first [reflexivity|discriminate H]. Qed.
Lemma run_texts q s : quiet q -> forall l p prev a ln rest ls res, mild ln -> toks ln = lay p prev l ++ rest -> forallb plain_piece l = true -> current_is Plus rest = false ->
  ends q normal s (push_text (flat l) a) (Some (adv ln rest)) ls res -> ends q normal s a (Some ln) ls res.
Proof.
  intros Q. induction l as [|[k x] l IH]; intros p prev a ln rest ls res M T A P H.
  - change (flat []) with (@nil ascii) in H. rewrite push_text_nil, adv_same in H by exact T. exact H.
  - cbn [lay app] in T. cbn [forallb] in A. apply andb_true_iff in A as [K A].
    eapply ends_go.
    + rewrite (at_token q normal s a _ _ ln ls M T) by (rewrite T; now apply quiet_plain). apply token_text. cbn [toks adv]. unfold plain_piece in K. cbn [fst snd] in K. unfold textual.
      destruct k; try discriminate K; try tauto; apply Nat.eqb_eq in K; first [do 5 right; left; now split|do 6 right; split; [reflexivity|]; split; [exact K|now apply lay_plus]].
    + eapply (IH _ _ _ (adv ln _)); [exact M|reflexivity|exact A|exact P|]. rewrite push_text_app. exact H.
Qed.

(** ** Formatted words *)
Lemma plain_words ws : forallb plain_piece (words_pieces ws) = true.
Proof. induction ws as [|w [|w2 ws] IH]; [reflexivity..|]. change (words_pieces (w :: w2 :: ws)) with ([(Word, w); space] ++ words_pieces (w2 :: ws)). rewrite forallb_app. apply andb_true_iff. split; [reflexivity|exact IH]. Qed.
Lemma follows_plus r : follows r = true -> current_is Plus r = false.
Proof. intros F. apply follows_inv in F as [->|(t & m & -> & I)]; [reflexivity|]. destruct t as [k x j]. cbn [tk In] in I. decompose [or] I; try contradiction; subst k; reflexivity. Qed.
(** the mark behind the words ends the formatting *)
Lemma closes st x i rest whole : follows rest = true -> forall ws p prev n before, ws <> [] ->
  is_some (term_in [Kind (mark_kind st)] CNone whole n before (lay p prev (words_pieces ws) ++ TokI (mark_kind st) x i :: rest)) = true.
Proof.
  intros F. induction ws as [|w [|w2 ws] IH]; intros p prev n bf NE; [easy| |].
  - cbn [words_pieces map sepj lay app]. apply follows_inv in F as [->|(t & m & -> & I)]; [destruct st; reflexivity|]. destruct t as [k y j]. cbn [tk In] in I. decompose [or] I; try contradiction; subst k; destruct st; reflexivity.
  - change (words_pieces (w :: w2 :: ws)) with ((Word, w) :: space :: words_pieces (w2 :: ws)). cbn [lay app space].
    cbn [term_in]. replace (starts_with_seq _ _) with false by now destruct st. cbn iota. replace (starts_with_seq _ _) with false by now destruct st. cbn iota. apply IH. discriminate.
Qed.
Definition span_kind_of (st : style) : span_kind := match st with Strong => Bold | Emphasis => Italic | Code => Mono end.
Lemma token_mark s a st p prev l ls w i m : ctx_of s = CNone -> aps_of s = None -> before_phrase prev -> toks l = TokI Word w i :: m -> is_some (terminates_in [Kind (mark_kind st)] CNone (toks l)) = true ->
  token_step E [] normal s a None (TokI (mark_kind st) (mark st) (Info false p prev 0)) l ls =
  Call (set_ctx (CSpecs [Kind (mark_kind st)]) s) [Kind (mark_kind st)] (l :: ls)
    (fun ns s ls => Go (set_ctx CNone s) (newline_if_needed (push_node (NSpan (span_kind_of st) None ns) a) ls) None None ls).
Proof.
  intros C A B T H. assert (SC : starts_constrained [Kind (mark_kind st)] (TokI (mark_kind st) (mark st) (Info false p prev 0)) (ctx_of s) (aps_of s) (toks l) ls = true).
  { unfold starts_constrained. cbn [inf repl before andb]. rewrite C, H, T. cbn [orb]. destruct B as [->|[->| ->]]; destruct st; reflexivity. }
  assert (R : restore (adv l (skipn 0 (toks l))) ls = l :: ls) by (unfold restore; cbn [toks adv skipn]; rewrite adv_same by reflexivity; now rewrite T).
  assert (PN : forall c, parse_node E (set_ctx c s) a (NSpan (span_kind_of st) None) same_st None [Kind (mark_kind st)] l ls =
    Call (set_ctx c s) [Kind (mark_kind st)] (l :: ls) (fun ns s ls => Go (set_ctx CNone s) (newline_if_needed (push_node (NSpan (span_kind_of st) None ns) a) ls) None None ls)).
  { intros c. unfold parse_node. cbn [length Nat.sub]. rewrite R. reflexivity. }
  destruct st.
  - unfold token_step. cbn [mark_kind] in *. unfold single. rewrite SC. apply PN.
  - unfold token_step. cbn [mark_kind] in *. unfold single. rewrite SC. apply PN.
  - unfold token_step. cbn [mark_kind] in *. unfold single. rewrite SC, T. apply PN.
Qed.

Lemma name_nonempty w : a_name w = true -> w <> [].
Proof. now intros H ->. Qed.
Lemma join_nonempty ws : ws <> [] -> forallb a_name ws = true -> join ($" ") ws <> [].
Proof. destruct ws as [|w [|w2 ws]]; [easy| |]; intros _ H; cbn [forallb] in H; apply andb_true_iff in H as [H _]; apply name_nonempty in H; [exact H|]. cbn [join]. now destruct w. Qed.
Lemma words_start ws p prev rest : ws <> [] -> exists w i m, lay p prev (words_pieces ws) ++ rest = TokI Word w i :: m.
Proof. destruct ws as [|w [|w2 ws]]; [easy| |]; intros _; eexists; eexists; eexists; reflexivity. Qed.
Lemma run_inner s st ws x i p prev ln rest ls : ws <> [] -> forallb a_name ws = true -> mild ln -> toks ln = lay p prev (words_pieces ws) ++ TokI (mark_kind st) x i :: rest ->
  ends [Kind (mark_kind st)] normal s acc0 None (ln :: ls) (Done s [NText (join ($" ") ws)] (restore (adv ln rest) ls)).
Proof.
  intros NE A M T. apply enter.
  - rewrite T. destruct (words_start ws p prev (TokI (mark_kind st) x i :: rest) NE) as (w & j & m & ->). reflexivity.
  - eapply run_texts; [right; now exists st|exact M|exact T|apply plain_words|destruct st; reflexivity|]. rewrite flat_words.
    replace [NText (join ($" ") ws)] with (finish (commit (push_text (join ($" ") ws) acc0)) None).
    + apply ends_fin. cbn [step toks adv]. replace (at_stop _ _) with true by now destruct st. reflexivity.
    + pose proof (join_nonempty ws NE A) as J. now destruct (join ($" ") ws).
Qed.

(** ** A phrase with its punctuation *)
Definition calm (s : st) : Prop := subs_of s = normal /\ ctx_of s = CNone /\ aps_of s = None.
Lemma calm_ctx s c : calm s -> set_ctx CNone (set_ctx c s) = s.
Proof. destruct s. intros (_ & C & _). cbn in *. now subst. Qed.
(** the state behind an item: the line may be over *)
Definition after (s : st) (a : accum) (ln : iline) (rest : list tok) (ls : list iline) (res : ires) : Prop :=
  match rest with [] => ends [] normal s (joining_newline a ls) None ls res | _ => ends [] normal s a (Some (adv ln rest)) ls res end.
Lemma after_ends s a ln rest ls res : mild ln -> after s a ln rest ls res -> ends [] normal s a (Some (adv ln rest)) ls res.
Proof. intros [M1 M2] H. destruct rest as [|t r]; [|exact H]. eapply ends_go; [|exact H]. cbn [step at_stop toks adv]. unfold may_contain_pass. cbn [passm pluses adv]. now rewrite M1, M2. Qed.
Definition fresh_next (ls : list iline) : Prop := match ls with l :: _ => unconsumed l = true | [] => True end.
Definition rest_ok (rest : list tok) : bool := match rest with [] => true | t :: _ => kind_eqb (tk t) Whitespace end.
Lemma rest_follows rest : rest_ok rest = true -> follows rest = true.
Proof. destruct rest as [|t r]; [easy|]. cbn [rest_ok follows existsb]. now intros ->. Qed.
Lemma punct_plain x : punctuation_ok x = true -> forallb plain_piece (punct_pieces x) = true.
Proof. destruct x as [|c [|d x]]; [reflexivity| |discriminate]. cbn [punctuation_ok]. intros H. apply among in H. cbn [In] in H. decompose [or] H; try contradiction; subst; reflexivity. Qed.
Lemma punct_follows x p prev rest : punctuation_ok x = true -> rest_ok rest = true -> follows (lay p prev (punct_pieces x) ++ rest) = true.
Proof. destruct x as [|c [|d x]]; [intros _; apply rest_follows| |discriminate]. cbn [punctuation_ok]. intros H _. apply among in H. cbn [In] in H. decompose [or] H; try contradiction; subst; reflexivity. Qed.
Lemma follows_ordinary r : r <> [] -> follows r = true -> ordinary_start r = true.
Proof. intros NE F. apply follows_inv in F as [->|(t & m & -> & I)]; [easy|]. cbn [ordinary_start]. cbn [In] in I. decompose [or] I; try contradiction; (match goal with H : _ = tk t |- _ => rewrite <- H; reflexivity end). Qed.
(** the nodes so far after an item, and after a line *)
Definition item_acc (i : item) (a : accum) : accum :=
  match fst i with
  | Plain w => push_text (w ++ snd i) a
  | Special c => push_text (snd i) (push_node (NSpecial (special_of_char c)) a)
  | Marked st ws => push_text (snd i) (push_node (NSpan (span_kind_of st) None [NText (join ($" ") ws)]) a)
  end.
Fixpoint line_acc (l : line) (a : accum) : accum := match l with [] => a | [i] => item_acc i a | i :: r => line_acc r (push_text ($" ") (item_acc i a)) end.
Lemma run_item s i p prev a ln rest ls : calm s -> mild ln -> toks ln = lay p prev (item_pieces i) ++ rest -> rest_ok rest = true -> item_ok i = true -> before_phrase prev -> length (toks ln) <= orig ln -> fresh_next ls -> fine a ->
  exists a', a' = item_acc i a /\ fine a' /\ (forall nl, shows nl a' = shows nl a ++ phrase_html (fst i) ++ snd i) /\ forall res, after s a' ln rest ls res -> ends [] normal s a (Some ln) ls res.
Proof.
  intros C M T R OK B O FN FA. destruct i as [ph x]. apply andb_true_iff in OK as [OK X]. cbn [fst snd] in *. unfold item_pieces in T. cbn [fst snd] in T.
  pose proof (punct_plain x X) as PP. pose proof (rest_follows rest R) as RF. pose proof (follows_plus rest RF) as RP.
  destruct ph as [w|c|st ws].
  - exists (push_text (w ++ x) a). split; [reflexivity|]. split; [exact FA|]. split; [intros nl; apply text_shows|]. intros res H. apply after_ends in H; [|exact M].
    eapply (run_texts [] s (or_introl eq_refl)); [exact M|exact T| |exact RP|].
    + rewrite forallb_app, PP, andb_true_r. cbn [phrase_pieces forallb]. unfold word_piece, plain_piece. cbn [fst]. now destruct (a_name w).
    + rewrite flat_app, flat_phrase, flat_punct. exact H.
  - exists (push_text x (push_node (NSpecial (special_of_char c)) a)). split; [reflexivity|]. split; [now apply text_fine, node_fine|]. split.
    { intros nl. rewrite text_shows, node_shows, <- app_assoc. f_equal. f_equal. cbn [node_html phrase_html]. unfold special_of_char, escaped. destruct (Ascii.eqb c "&"); [reflexivity|]. now destruct (Ascii.eqb c "<"). }
    intros res H. apply after_ends in H; [|exact M]. cbn [phrase_pieces app lay] in T. eapply ends_go.
    + rewrite (at_token [] normal s a _ _ ln ls M T) by (rewrite T; reflexivity). apply token_special; [exact OK|]. now apply punct_follows.
    + eapply (run_texts [] s (or_introl eq_refl) (punct_pieces x)); [exact M|reflexivity|exact PP|exact RP|]. rewrite flat_punct. exact H.
  - cbn [phrase_ok] in OK. assert (WS : ws <> [] /\ forallb a_name ws = true) by (destruct ws; [discriminate OK|split; [discriminate|exact OK]]). destruct WS as [NE A].
    set (a1 := push_node (NSpan (span_kind_of st) None [NText (join ($" ") ws)]) a).
    assert (F1 : fine a1) by (apply node_fine; [exact FA|]; now destruct st).
    assert (S1 : forall nl, shows nl a1 = shows nl a ++ phrase_html (Marked st ws)).
    { intros nl. unfold a1. rewrite node_shows. f_equal. cbn [node_html map concat phrase_html]. rewrite app_nil_r. now destruct st. }
    exists (push_text x a1). split; [reflexivity|]. split; [exact F1|]. split; [intros nl; rewrite text_shows, S1; now rewrite <- app_assoc|]. intros res H.
    cbn [phrase_pieces] in T. rewrite <- app_comm_cons, <- app_assoc in T. cbn [lay] in T. rewrite lay_app in T. rewrite <- app_comm_cons, <- app_assoc in T. cbn [app lay] in T.
    set (p1 := p + length (mark st)) in T. set (prev1 := final prev (mark st)) in T. set (p2 := p1 + length (flat (words_pieces ws))) in T. set (prev2 := final_of prev1 (words_pieces ws)) in T.
    set (p3 := p2 + length (mark st)) in T. set (prev3 := final prev2 (mark st)) in T. set (rest' := lay p3 prev3 (punct_pieces x) ++ rest) in T.
    assert (F' : follows rest' = true) by now apply punct_follows.
    destruct (words_start ws p1 prev1 (TokI (mark_kind st) (mark st) (Info false p2 prev2 0) :: rest') NE) as (w0 & i0 & m0 & W0).
    set (l1 := adv ln (lay p1 prev1 (words_pieces ws) ++ TokI (mark_kind st) (mark st) (Info false p2 prev2 0) :: rest')).
    destruct C as (CS & CC & CA).
    eapply (ends_call [] normal s a (Some ln) ls _ _ l1 ls _ (set_ctx (CSpecs [Kind (mark_kind st)]) s) [NText (join ($" ") ws)] (restore (adv l1 rest') ls) s _ None _).
    + rewrite (at_token [] normal s a _ _ ln ls M T) by (rewrite T; reflexivity). apply (token_mark s a st p prev l1 ls w0 i0 m0); try assumption. apply closes; assumption.
    + unfold l1. cbn [toks adv]. rewrite W0. discriminate.
    + cbn [set_ctx subs_of]. rewrite CS. eapply run_inner; [exact NE|exact A|exact M|reflexivity].
    + cbn beta. rewrite calm_ctx by (repeat split; assumption). reflexivity.
    + fold a1. destruct rest' as [|t' r'] eqn:RE.
      * assert (X0 : x = [] /\ rest = []). { unfold rest' in RE. apply app_eq_nil in RE as [E1 E2]. split; [|exact E2]. destruct x; [reflexivity|discriminate E1]. } destruct X0 as [-> ->].
        rewrite push_text_nil in H. cbn [after] in H. unfold restore. cbn [toks adv]. destruct ls as [|l2 ls2]; [exact H|]. cbn [fresh_next] in FN. cbn [newline_if_needed]. rewrite FN. rewrite joining_fine in H by exact F1. exact H.
      * unfold restore. cbn [toks adv newline_if_needed]. unfold unconsumed. cbn [toks orig adv l1].
        replace (length (t' :: r') =? orig ln) with false.
        2:{ symmetry. apply Nat.eqb_neq. rewrite T in O. cbn [length] in O. rewrite !app_length in O. cbn [length] in *. lia. }
        apply enter; [apply follows_ordinary; [discriminate|exact F']|]. apply after_ends in H; [|exact M].
        eapply (run_texts [] s (or_introl eq_refl) (punct_pieces x)); [exact M|cbn [toks adv]; rewrite <- RE; reflexivity|exact PP|exact RP|]. rewrite flat_punct. exact H.
Qed.

(** ** Lines *)
Lemma line_start_plus l : forall p prev, forallb item_ok l = true -> current_is Plus (lay p prev (line_pieces l)) = false.
Proof.
  intros p prev. destruct l as [|[ph x] l]; [reflexivity|]. cbn [forallb]. intros H. apply andb_true_iff in H as [H _]. apply andb_true_iff in H as [H _]. cbn [fst] in H.
  assert (G : forall m, current_is Plus (lay p prev (phrase_pieces ph ++ m)) = false).
  { intros m. destruct ph as [w|c|st ws]; cbn [phrase_pieces app lay word_piece]; [now destruct (a_name w)| |now destruct st]. cbn [phrase_ok] in H. apply among in H. cbn [In] in H. decompose [or] H; try contradiction; subst c; reflexivity. }
  destruct l as [|j l]; cbn [line_pieces map sepj]; unfold item_pieces; cbn [fst snd]; [apply G|]. rewrite <- app_assoc. apply G.
Qed.
Lemma line_html_cons i j l : line_html (i :: j :: l) = (phrase_html (fst i) ++ snd i) ++ $" " ++ line_html (j :: l).
Proof. reflexivity. Qed.
Lemma run_line s ls : calm s -> fresh_next ls -> forall l p prev a ln, l <> [] -> mild ln -> toks ln = lay p prev (line_pieces l) -> forallb item_ok l = true -> before_phrase prev -> length (toks ln) <= orig ln -> fine a ->
  exists a', a' = line_acc l a /\ fine a' /\ (forall nl, shows nl a' = shows nl a ++ line_html l) /\ forall res, ends [] normal s (joining_newline a' ls) None ls res -> ends [] normal s a (Some ln) ls res.
Proof.
  intros C FN. induction l as [|i l IH]; intros p prev a ln NE M T OK B O FA; [easy|]. cbn [forallb] in OK. apply andb_true_iff in OK as [OI OK]. destruct l as [|j l].
  - cbn [line_pieces map sepj] in T. rewrite <- (app_nil_r (lay _ _ _)) in T. destruct (run_item s i p prev a ln [] ls C M T eq_refl OI B O FN FA) as (a' & A' & F' & S' & K). exists a'. split; [exact A'|]. split; [exact F'|]. split; [exact S'|]. intros res H. apply K. exact H.
  - change (line_pieces (i :: j :: l)) with (item_pieces i ++ space :: line_pieces (j :: l)) in T. rewrite lay_app in T. cbn [lay space] in T.
    destruct (run_item s i p prev a ln _ ls C M T eq_refl OI B O FN FA) as (a1 & A1 & F1 & S1 & K1). cbn [after] in K1.
    set (rest := lay (_ + length ($" ")) _ _) in *. set (sp := TokI Whitespace _ _) in *.
    assert (OL : length rest <= orig ln) by (rewrite T in O; rewrite app_length in O; cbn [length] in O; lia).
    destruct (IH _ _ (push_text ($" ") a1) (adv ln rest) ltac:(discriminate) M eq_refl OK ltac:(right; left; reflexivity) OL F1) as (a' & A' & F' & S' & K). exists a'. split; [rewrite A', A1; reflexivity|]. split; [exact F'|]. split.
    { intros nl. rewrite S', text_shows, S1, line_html_cons. now rewrite <- !app_assoc. }
    intros res H. apply K1. eapply (run_texts [] s (or_introl eq_refl) [space] _ _ _ (adv ln (sp :: rest)) rest); [exact M|reflexivity|reflexivity|now apply line_start_plus|]. apply K. exact H.
Qed.
Definition of_line (ln : iline) (l : line) : Prop := mild ln /\ orig ln = length (toks ln) /\ exists p prev, toks ln = lay p prev (line_pieces l) /\ before_phrase prev.
Lemma line_ordinary l p prev : l <> [] -> forallb item_ok l = true -> ordinary_start (lay p prev (line_pieces l)) = true.
Proof.
  intros NE. destruct l as [|[ph x] l]; [easy|]. cbn [forallb]. intros H. apply andb_true_iff in H as [H _]. apply andb_true_iff in H as [H _]. cbn [fst] in H.
  assert (G : forall m, ordinary_start (lay p prev (phrase_pieces ph ++ m)) = true).
  { intros m. destruct ph as [w|c|st ws]; cbn [phrase_pieces app lay word_piece]; [now destruct (a_name w)| |now destruct st]. cbn [phrase_ok] in H. apply among in H. cbn [In] in H. decompose [or] H; try contradiction; subst c; reflexivity. }
  destruct l as [|j l]; cbn [line_pieces map sepj]; unfold item_pieces; cbn [fst snd]; [apply G|]. rewrite <- app_assoc. apply G.
Qed.
Lemma run_lines s : calm s -> forall ls lns a, Forall2 of_line lns ls -> Forall (fun l => l <> [] /\ forallb item_ok l = true) ls -> fine a ->
  exists ns, forallb good ns = true /\ (forall nl, nodes_html nl ns = shows nl a ++ join nl (map line_html ls)) /\ ends [] normal s a None lns (Done s ns []).
Proof.
  intros C. induction ls as [|l ls IH]; intros lns a F OK FA; inversion F as [|ln l' lns' ls' OL F']; subst.
  - destruct (finish_fine a FA) as [S G]. exists (finish a None). split; [exact G|]. split; [intros nl; rewrite S; cbn; now rewrite app_nil_r|]. now apply ends_fin.
  - inversion OK as [|? ? [NE OI] OK']; subst. destruct OL as (M & O & p & prev & T & B).
    assert (FN : fresh_next lns') by (inversion F' as [|ln2 l2 lns2 ls2 OL2 F2]; subst; [exact I|]; destruct OL2 as (_ & O2 & _); unfold fresh_next, unconsumed; rewrite O2; apply Nat.eqb_refl).
    destruct (run_line s lns' C FN l p prev a ln NE M T OI B ltac:(lia) FA) as (a' & _ & FA' & S' & K).
    assert (FJ : fine (joining_newline a' lns')) by (destruct lns' as [|x y]; [exact FA'|]; rewrite joining_fine by exact FA'; now apply node_fine).
    destruct (IH lns' (joining_newline a' lns') F' OK' FJ) as (ns & G & SH & E2). exists ns. split; [exact G|]. split.
    + intros nl. rewrite SH. destruct ls as [|l2 ls]; inversion F'; subst.
      * cbn [joining_newline map join]. rewrite app_nil_r. apply S'.
      * rewrite joining_fine, node_shows, S' by exact FA'. change (map line_html (l :: l2 :: ls)) with (line_html l :: map line_html (l2 :: ls)). change (join nl (line_html l :: map line_html (l2 :: ls))) with (line_html l ++ nl ++ join nl (map line_html (l2 :: ls))). cbn [node_html]. now rewrite <- !app_assoc.
    + apply enter; [rewrite T; now apply line_ordinary|]. apply K. exact E2.
Qed.
End Runs.

(** ** A paragraph *)
Lemma parse_paragraph E s lns ls : (forall l, ordinary_start (toks l) = true -> stops E l = false) -> calm s -> Forall2 of_line lns ls -> Forall (fun l => l <> [] /\ forallb item_ok l = true) ls -> ls <> [] ->
  exists ns, forallb good ns = true /\ (forall nl, nodes_html nl ns = join nl (map line_html ls)) /\ parse_inlines_until (enough lns) E [] s lns = Done s ns [].
Proof.
  intros FR C F OK NE. destruct (run_lines E FR s C ls lns acc0 F OK eq_refl) as (ns & G & S & _ & n & H). exists ns. split; [exact G|]. split; [exact S|].
  inversion F as [|ln l lns' ls' OL F']; subst; [easy|]. destruct OL as (M & O & p & prev & T & B). pose proof (Forall_inv OK) as [NL OI]. pose proof (line_ordinary l p prev NL OI) as LO. rewrite <- T in LO.
  pose proof (parse_ends E [] s (ln :: lns') (enough (ln :: lns')) (le_n _)) as PE. unfold parse_inlines_until in *. destruct (toks ln) as [|t r] eqn:TE; [discriminate LO|].
  destruct C as (CS & _). rewrite CS in *. set (f := enough (ln :: lns')) in *.
  rewrite <- (go_more E f _ _ _ _ _ _ _ PE (Nat.max f n)) by lia. rewrite (go_more E n) by (try lia; rewrite H; discriminate). exact H.
Qed.
