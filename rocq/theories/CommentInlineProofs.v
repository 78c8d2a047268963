(** Proofs for C79: lines of comments in a paragraph of the texts of C67. *)
From Verif Require Import Base Utf8 LexerModel LineModel SubsModel InlineModel InlineSpec InlineTermSpec InlineTermProofs WholeModel WholeSpec WholeLexProofs WholePieceProofs WholeInlineProofs CommentTextSpec.
From Verif Require BlockModel BlockLinesProps CommentSpec CommentParseProofs.
Import ListNotations.
Open Scope list_scope.
Open Scope nat_scope.

Definition good' (n : inode) : bool := good n || is_note n.
Definition fine' (a : accum) : Prop := forallb good' (nodes_of a) = true.
Lemma add_text_good' ns x : forallb good' ns = true -> forallb good' (add_text ns x) = true.
Proof.
  intros H. unfold add_text. destruct x as [|c x]; [exact H|]. assert (D : forallb good' (ns ++ [NText (c :: x)]) = true) by (rewrite forallb_app, H; reflexivity).
  destruct (rev ns) as [|n r] eqn:R; [exact D|]. destruct n; try exact D. apply (f_equal (@rev _)) in R. rewrite rev_involutive in R. cbn [rev] in R. rewrite R, forallb_app in H. apply andb_true_iff in H as [H _]. rewrite forallb_app, H. reflexivity.
Qed.
Lemma node_fine' n a : fine' a -> good' n = true -> fine' (push_node n a).
Proof. unfold fine', push_node, commit. cbn [nodes_of text]. intros H G. rewrite forallb_app, add_text_good' by exact H. cbn. now rewrite G. Qed.
Lemma joining_fine' a l ls : fine' a -> joining_newline a (l :: ls) = push_node NNewline a.
Proof.
  intros F. unfold joining_newline. pose proof (add_text_good' _ (text a) F) as G. cbn [commit nodes_of]. destruct (rev (add_text (nodes_of a) (text a))) as [|n r] eqn:R; [apply push_commit|].
  destruct n; try apply push_commit. exfalso. apply (f_equal (@rev _)) in R. rewrite rev_involutive in R. cbn [rev] in R. rewrite R, forallb_app in G. cbn in G. rewrite andb_false_r in G. discriminate.
Qed.

Section Runs.
Variable E : env.
Hypothesis free : forall l, ordinary_start (toks l) = true -> stops E l = false.
Notation ends := (ends E).
Notation after := (after E).
Lemma run_item' s i p prev a ln rest ls : calm s -> mild ln -> toks ln = lay p prev (item_pieces i) ++ rest -> rest_ok rest = true -> item_ok i = true -> before_phrase prev -> length (toks ln) <= orig ln -> fresh_next ls -> fine' a ->
  fine' (item_acc i a) /\ forall res, after s (item_acc i a) ln rest ls res -> ends [] normal s a (Some ln) ls res.
Proof.
  intros C M T R OK B O FN FA. destruct i as [ph x]. apply andb_true_iff in OK as [OK X]. cbn [fst snd] in *. unfold item_pieces in T. cbn [fst snd] in T.
  pose proof (punct_plain x X) as PP. pose proof (rest_follows rest R) as RF. pose proof (follows_plus rest RF) as RP. unfold item_acc. cbn [fst snd].
  destruct ph as [w|c|st ws].
  - split; [exact FA|]. intros res H. apply after_ends in H; [|exact M].
    eapply (run_texts E [] s (or_introl eq_refl)); [exact M|exact T| |exact RP|].
    + rewrite forallb_app, PP, andb_true_r. cbn [phrase_pieces forallb]. unfold word_piece, plain_piece. cbn [fst]. now destruct (a_name w).
    + rewrite flat_app, flat_phrase, flat_punct. exact H.
  - split; [now apply node_fine'|].
    intros res H. apply after_ends in H; [|exact M]. cbn [phrase_pieces app lay] in T. eapply ends_go.
    + rewrite (at_token E [] normal s a _ _ ln ls M T) by (rewrite T; reflexivity). apply token_special; [exact OK|]. now apply punct_follows.
    + eapply (run_texts E [] s (or_introl eq_refl) (punct_pieces x)); [exact M|reflexivity|exact PP|exact RP|]. rewrite flat_punct. exact H.
  - cbn [phrase_ok] in OK. assert (WS : ws <> [] /\ forallb a_name ws = true) by (destruct ws; [discriminate OK|split; [discriminate|exact OK]]). destruct WS as [NE A].
    set (a1 := push_node (NSpan (span_kind_of st) None [NText (join ($" ") ws)]) a).
    assert (F1 : fine' a1) by (apply node_fine'; [exact FA|]; now destruct st).
    split; [exact F1|]. intros res H.
    cbn [phrase_pieces] in T. rewrite <- app_comm_cons, <- app_assoc in T. cbn [lay] in T. rewrite lay_app in T. rewrite <- app_comm_cons, <- app_assoc in T. cbn [app lay] in T.
    set (p1 := p + length (mark st)) in T. set (prev1 := final prev (mark st)) in T. set (p2 := p1 + length (flat (words_pieces ws))) in T. set (prev2 := final_of prev1 (words_pieces ws)) in T.
    set (p3 := p2 + length (mark st)) in T. set (prev3 := final prev2 (mark st)) in T. set (rest' := lay p3 prev3 (punct_pieces x) ++ rest) in T.
    assert (F' : follows rest' = true) by now apply punct_follows.
    destruct (words_start ws p1 prev1 (TokI (mark_kind st) (mark st) (Info false p2 prev2 0) :: rest') NE) as (w0 & i0 & m0 & W0).
    set (l1 := adv ln (lay p1 prev1 (words_pieces ws) ++ TokI (mark_kind st) (mark st) (Info false p2 prev2 0) :: rest')).
    destruct C as (CS & CC & CA).
    eapply (ends_call E [] normal s a (Some ln) ls _ _ l1 ls _ (set_ctx (CSpecs [Kind (mark_kind st)]) s) [NText (join ($" ") ws)] (restore (adv l1 rest') ls) s _ None _).
    + rewrite (at_token E [] normal s a _ _ ln ls M T) by (rewrite T; reflexivity). apply (token_mark E s a st p prev l1 ls w0 i0 m0); try assumption. apply closes; assumption.
    + unfold l1. cbn [toks adv]. rewrite W0. discriminate.
    + cbn [set_ctx subs_of]. rewrite CS. eapply run_inner; [exact free|exact NE|exact A|exact M|reflexivity].
    + cbn beta. rewrite calm_ctx by (repeat split; assumption). reflexivity.
    + fold a1. destruct rest' as [|t' r'] eqn:RE.
      * assert (X0 : x = [] /\ rest = []). { unfold rest' in RE. apply app_eq_nil in RE as [E1 E2]. split; [|exact E2]. destruct x; [reflexivity|discriminate E1]. } destruct X0 as [-> ->].
        rewrite push_text_nil in H. cbn [WholeInlineProofs.after] in H. unfold restore. cbn [toks adv]. destruct ls as [|l2 ls2]; [exact H|]. cbn [fresh_next] in FN. cbn [newline_if_needed]. rewrite FN. rewrite joining_fine' in H by exact F1. exact H.
      * unfold restore. cbn [toks adv newline_if_needed]. unfold unconsumed. cbn [toks orig adv l1].
        replace (length (t' :: r') =? orig ln) with false.
        2:{ symmetry. apply Nat.eqb_neq. rewrite T in O. cbn [length] in O. rewrite !app_length in O. cbn [length] in *. lia. }
        apply enter; [exact free|apply follows_ordinary; [discriminate|exact F']|]. apply after_ends in H; [|exact M].
        eapply (run_texts E [] s (or_introl eq_refl) (punct_pieces x)); [exact M|cbn [toks adv]; rewrite <- RE; reflexivity|exact PP|exact RP|]. rewrite flat_punct. exact H.
Qed.
Lemma run_line' s ls : calm s -> fresh_next ls -> forall l p prev a ln, l <> [] -> mild ln -> toks ln = lay p prev (line_pieces l) -> forallb item_ok l = true -> before_phrase prev -> length (toks ln) <= orig ln -> fine' a ->
  fine' (line_acc l a) /\ forall res, ends [] normal s (joining_newline (line_acc l a) ls) None ls res -> ends [] normal s a (Some ln) ls res.
Proof.
  intros C FN. induction l as [|i l IH]; intros p prev a ln NE M T OK B O FA; [easy|]. cbn [forallb] in OK. apply andb_true_iff in OK as [OI OK]. destruct l as [|j l].
  - cbn [line_pieces map sepj] in T. rewrite <- (app_nil_r (lay _ _ _)) in T. destruct (run_item' s i p prev a ln [] ls C M T eq_refl OI B O FN FA) as (F' & K). split; [exact F'|]. intros res H. apply K. exact H.
  - change (line_pieces (i :: j :: l)) with (item_pieces i ++ space :: line_pieces (j :: l)) in T. rewrite lay_app in T. cbn [lay space] in T.
    destruct (run_item' s i p prev a ln _ ls C M T eq_refl OI B O FN FA) as (F1 & K1). cbn [WholeInlineProofs.after] in K1.
    set (rest := lay (_ + length ($" ")) _ _) in *. set (sp := TokI Whitespace _ _) in *.
    assert (OL : length rest <= orig ln) by (rewrite T in O; rewrite app_length in O; cbn [length] in O; lia).
    destruct (IH _ _ (push_text ($" ") (item_acc i a)) (adv ln rest) ltac:(discriminate) M eq_refl OK ltac:(right; left; reflexivity) OL F1) as (F' & K). split; [exact F'|].
    intros res H. apply K1. eapply (run_texts E [] s (or_introl eq_refl) [space] _ _ _ (adv ln (sp :: rest)) rest); [exact M|reflexivity|reflexivity|now apply line_start_plus|]. apply K. exact H.
Qed.

(** ** The nodes with and without the comments *)
Definition pair (a b : accum) : Prop :=
  visible (nodes_of a) = nodes_of b /\ text a = text b /\ forall x r, rev (nodes_of a) = NComment x :: r -> match rev (nodes_of b) with [] | NNewline :: _ => True | _ => False end.
Lemma visible_app x y : visible (x ++ y) = visible x ++ visible y.
Proof. apply filter_app. Qed.
Lemma last_of {A} (l : list A) x r : rev l = x :: r -> l = rev r ++ [x].
Proof. intros R. apply (f_equal (@rev _)) in R. rewrite rev_involutive in R. exact R. Qed.
Lemma add_pair a b : pair a b -> visible (add_text (nodes_of a) (text a)) = add_text (nodes_of b) (text b).
Proof.
  intros (V & T & K). rewrite T. unfold add_text. destruct (text b) as [|c x]; [exact V|]. destruct (rev (nodes_of a)) as [|n r] eqn:RA.
  - apply (f_equal (@rev _)) in RA. rewrite rev_involutive in RA. rewrite RA in *. cbn in V. rewrite <- V. reflexivity.
  - pose proof (last_of _ _ _ RA) as LA. rewrite LA, visible_app in V.
    assert (D : forall m, is_note m = false -> visible [m] = [m]) by (intros m M; unfold visible; cbn [filter]; now rewrite M).
    destruct n; try (rewrite D in V by reflexivity; rewrite <- V, rev_unit; first [rewrite LA, !visible_app; rewrite !D by reflexivity; reflexivity|rewrite visible_app, !D, rev_involutive by reflexivity; reflexivity]).
    specialize (K _ _ eq_refl). cbn [visible filter is_note negb] in V. rewrite app_nil_r in V. rewrite LA, !visible_app. cbn [visible filter is_note negb]. rewrite app_nil_r.
    fold (visible (rev r)). rewrite V. destruct (rev (nodes_of b)) as [|m q] eqn:RB; [reflexivity|]. destruct m; first [contradiction|reflexivity].
Qed.
Lemma node_pair n a b : is_note n = false -> pair a b -> pair (push_node n a) (push_node n b).
Proof.
  intros N P. unfold push_node, commit. split; [|split; [reflexivity|]]; cbn [nodes_of text].
  - rewrite visible_app, (add_pair a b P). unfold visible. cbn [filter]. now rewrite N.
  - intros x r R. rewrite rev_unit in R. injection R as R _. now subst n.
Qed.
Lemma text_pair x a b : pair a b -> pair (push_text x a) (push_text x b).
Proof. intros (V & T & K). split; [exact V|]. split; [cbn; now rewrite T|exact K]. Qed.
Lemma item_pair i a b : pair a b -> pair (item_acc i a) (item_acc i b).
Proof. intros P. unfold item_acc. destruct (fst i); repeat first [apply text_pair|apply node_pair; [reflexivity|]]; exact P. Qed.
Lemma line_pair l : forall a b, pair a b -> pair (line_acc l a) (line_acc l b).
Proof. induction l as [|i [|j l] IH]; intros a b P; [exact P|now apply item_pair|]. apply IH, text_pair, item_pair, P. Qed.
(** a line leaves a text or a node that is no comment *)
Definition ended (a : accum) : Prop := exists r n, nodes_of (commit a) = r ++ [n] /\ good n = true.
Lemma ended_text a c x : text a = c :: x -> ended a.
Proof. intros T. unfold ended, commit. cbn [nodes_of]. rewrite T. unfold add_text. destruct (rev (nodes_of a)) as [|n r]; [now eexists; eexists; split|]. destruct n; now eexists; eexists; split. Qed.
Lemma ended_node n x a : good n = true -> ended (push_text x (push_node n a)).
Proof. intros N. destruct x as [|c x]; [rewrite push_text_nil; now exists (nodes_of (commit a)), n|]. now apply (ended_text _ c x). Qed.
Lemma item_ended i a : item_ok i = true -> ended (item_acc i a).
Proof.
  intros OK. apply andb_true_iff in OK as [OK _]. unfold item_acc. destruct (fst i) as [w|c|st ws]; [|apply ended_node; first [reflexivity|now destruct st]..]. cbn [phrase_ok] in OK.
  assert (W : w <> []) by (destruct w; [discriminate OK|discriminate]). destruct w as [|c w]; [easy|]. destruct (text (push_text ((c :: w) ++ snd i) a)) as [|d y] eqn:T; [|now apply (ended_text _ d y)]. cbn in T. apply app_eq_nil in T as [_ T]. discriminate T.
Qed.
Lemma line_ended l : forall a, l <> [] -> forallb item_ok l = true -> ended (line_acc l a).
Proof.
  induction l as [|i [|j l] IH]; intros a NE OK; [easy| |]; cbn [forallb] in OK; apply andb_true_iff in OK as [OI OK]; [now apply item_ended|]. now apply IH.
Qed.
Lemma trimmed_good r n f : good n = true -> trimmed f (rev (r ++ [n])) = rev (r ++ [n]).
Proof. intros G. rewrite rev_unit. destruct f; [reflexivity|]. destruct n; first [reflexivity|discriminate G]. Qed.
Lemma finish_ended a : ended a -> finish a None = nodes_of (commit a).
Proof. intros (r & n & N & G). unfold finish. cbn [push_unused]. rewrite N, (trimmed_good r n _ G). apply rev_involutive. Qed.
(** ** Comments at the end *)
Lemma trim_notes r n ks : good n = true -> forallb is_note ks = true -> ks <> [] -> forall f, length ks <= f -> trimmed f (ks ++ NNewline :: rev (r ++ [n])) = rev (r ++ [n]).
Proof.
  intros G F NE. induction ks as [|k ks IH]; [easy|]. cbn [forallb] in F. apply andb_true_iff in F as [K F]. intros [|f] L; [cbn in L; lia|]. destruct k; try discriminate K. cbn [app trimmed]. destruct ks as [|k2 ks].
  - cbn [app]. pose proof (trimmed_good r n f G) as T. rewrite rev_unit in *. destruct n; try discriminate G; exact T.
  - cbn [forallb] in F. destruct k2; try discriminate F. cbn [app]. apply IH; [exact F|discriminate|cbn in *; lia].
Qed.
Hypothesis notes : forall c, CommentSpec.comment_line c -> stops E (line_of c) = false.
Definition note_of (c : list tok) : inode := NComment (text_of (tl (toks (line_of c)))).
Lemma note_step s a c ls : CommentSpec.comment_line c ->
  step E [] normal s a None None (line_of c :: ls) = Go s (push_node (note_of c) (match ls with [] => Acc (discard_trailing_newline (nodes_of a)) (text a) | _ => a end)) None None ls.
Proof. intros C. cbn [step]. rewrite (notes c C), (CommentParseProofs.is_comment_line c C). reflexivity. Qed.
Lemma notes_rev ks : forallb is_note ks = true -> forallb is_note (rev ks) = true.
Proof. intros K. apply forallb_forall. intros x I. apply in_rev in I. rewrite forallb_forall in K. now apply K. Qed.
Lemma tail_run s r n : good n = true -> forall cs ks, Forall CommentSpec.comment_line cs -> forallb is_note ks = true -> ks ++ map note_of cs <> [] ->
  ends [] normal s (Acc ((r ++ [n]) ++ NNewline :: ks) []) None (map line_of cs) (Done s (r ++ [n]) []).
Proof.
  intros G. induction cs as [|c cs IH]; intros ks F K NE.
  - cbn [map] in *. rewrite app_nil_r in NE. apply ends_fin. cbn [step]. f_equal. unfold finish, push_unused, commit. cbn [nodes_of text add_text]. rewrite rev_app_distr. cbn [rev]. rewrite <- (app_assoc (rev ks)). cbn [app].
    rewrite trim_notes; [apply rev_involutive|exact G|now apply notes_rev|intros R; apply NE; apply (f_equal (@rev _)) in R; now rewrite rev_involutive in R|]. rewrite !app_length, rev_length. cbn [length]. lia.
  - inversion F as [|? ? C F']; subst. cbn [map]. eapply ends_go; [now apply note_step|]. destruct cs as [|c2 cs].
    + cbn [map]. destruct (rev ks) as [|k q] eqn:RK.
      * apply (f_equal (@rev _)) in RK. rewrite rev_involutive in RK. subst ks. apply ends_fin. cbn [step]. f_equal. unfold finish, push_unused, push_node, commit, discard_trailing_newline. cbn [nodes_of text add_text]. rewrite rev_unit, rev_involutive.
        cbn [nodes_of text add_text]. rewrite !rev_unit. rewrite app_length. cbn [length]. rewrite Nat.add_1_r. unfold note_of at 1. cbn [trimmed]. pose proof (fun f => trimmed_good r n f G) as TG. rewrite rev_unit in TG. rewrite TG. cbn [rev]. now rewrite rev_involutive.
      * pose proof (last_of _ _ _ RK) as LK. assert (KN : is_note k = true) by (rewrite LK, forallb_app in K; cbn in K; apply andb_true_iff in K as [_ K]; now rewrite andb_true_r in K).
        assert (D : discard_trailing_newline ((r ++ [n]) ++ NNewline :: ks) = (r ++ [n]) ++ NNewline :: ks).
        { unfold discard_trailing_newline. rewrite LK. change (NNewline :: rev q ++ [k]) with ((NNewline :: rev q) ++ [k]). rewrite app_assoc, rev_unit. destruct k; first [reflexivity|discriminate KN]. }
        cbn [nodes_of text]. rewrite D. unfold push_node, commit. cbn [nodes_of text add_text]. rewrite <- (app_assoc (r ++ [n])). cbn [app]. apply (IH (ks ++ [note_of c]) F'); [rewrite forallb_app, K; reflexivity|]. now destruct ks.
    + cbn [map]. unfold push_node, commit. cbn [nodes_of text add_text]. rewrite <- (app_assoc (r ++ [n])). cbn [app]. apply (IH (ks ++ [note_of c]) F'); [rewrite forallb_app, K; reflexivity|]. now destruct ks.
Qed.

Lemma only_notes lns lns0 ls : mixed lns lns0 ls -> ls = [] -> lns0 = [] /\ exists cs, Forall CommentSpec.comment_line cs /\ lns = map line_of cs.
Proof.
  induction 1 as [|ln l lns lns0 ls O N I M IH|c lns lns0 ls C M IH]; intros Z; [split; [reflexivity|]; now exists []|discriminate Z|]. destruct (IH Z) as [-> (cs & F & ->)]. split; [reflexivity|]. exists (c :: cs). split; [now constructor|reflexivity].
Qed.
Lemma some_lines lns lns0 ls : mixed lns lns0 ls -> ls <> [] -> lns0 <> [].
Proof. induction 1 as [|ln l lns lns0 ls O N I M IH|c lns lns0 ls C M IH]; intros Z; [easy|discriminate|now apply IH]. Qed.
Lemma mixed_fresh lns lns0 ls : mixed lns lns0 ls -> fresh_next lns /\ fresh_next lns0.
Proof.
  induction 1 as [|ln l lns lns0 ls O N I M IH|c lns lns0 ls C M IH]; [split; exact Logic.I| |].
  - destruct O as (_ & O & _). split; cbn [fresh_next]; unfold unconsumed; rewrite O; apply Nat.eqb_refl.
  - split; [|tauto]. cbn [fresh_next]. pose proof (CommentParseProofs.is_comment_line c C) as K. unfold is_comment in K. now apply andb_true_iff in K as [K _].
Qed.
Definition at_start (b : accum) : Prop := text b = [] /\ match rev (nodes_of b) with [] | NNewline :: _ => True | _ => False end.
Lemma mixed_run s : calm s -> forall lns lns0 ls, mixed lns lns0 ls -> ls <> [] -> forall a b, fine' a -> fine' b -> pair a b -> at_start b ->
  exists ns, ends [] normal s a None lns (Done s ns []) /\ ends [] normal s b None lns0 (Done s (visible ns) []).
Proof.
  intros C lns lns0 ls M. induction M as [|ln l lns lns0 ls OL NE OI M IH|c lns lns0 ls CL M IH]; intros NL a b FA FB P AS; [easy| |].
  - destruct OL as (ML & O & p & prev & T & B). destruct (mixed_fresh _ _ _ M) as [FN FN0].
    destruct (run_line' s lns C FN l p prev a ln NE ML T OI B ltac:(lia) FA) as [FA' KA]. destruct (run_line' s lns0 C FN0 l p prev b ln NE ML T OI B ltac:(lia) FB) as [FB' KB].
    pose proof (line_pair l a b P) as P'. pose proof (line_ordinary l p prev NE OI) as LO. rewrite <- T in LO. destruct ls as [|l2 ls].
    + destruct (only_notes _ _ _ M eq_refl) as [-> (cs & F & ->)]. exists (nodes_of (commit (line_acc l a))). split.
      * apply enter; [exact free|exact LO|]. apply KA. destruct cs as [|c cs]; [cbn [map joining_newline]; apply ends_fin; cbn [step]; now rewrite (finish_ended _ (line_ended l a NE OI))|].
        cbn [map]. rewrite joining_fine' by exact FA'. destruct (line_ended l a NE OI) as (r & n & N & G). unfold push_node. rewrite N. apply (tail_run s r n G (c :: cs) [] F eq_refl). discriminate.
      * apply enter; [exact free|exact LO|]. apply KB. apply ends_fin. cbn [step joining_newline]. rewrite (finish_ended _ (line_ended l b NE OI)). unfold commit. cbn [nodes_of]. now rewrite (add_pair _ _ P').
    + pose proof (some_lines _ _ _ M ltac:(discriminate)) as L0.
      assert (L1 : lns <> []) by (intros ->; inversion M). destruct (IH ltac:(discriminate) (push_node NNewline (line_acc l a)) (push_node NNewline (line_acc l b))) as (ns & E1 & E2);
        [now apply node_fine'|now apply node_fine'|now apply node_pair|split; [reflexivity|]; unfold push_node; cbn [nodes_of]; now rewrite rev_unit|].
      exists ns. split; (apply enter; [exact free|exact LO|]).
      * apply KA. destruct lns; [easy|]. now rewrite joining_fine' by exact FA'.
      * apply KB. destruct lns0; [easy|]. now rewrite joining_fine' by exact FB'.
  - assert (L1 : lns <> []) by (intros ->; inversion M; subst; easy). destruct AS as [TB AS]. pose proof P as (V & TA & K). rewrite TB in TA.
    destruct (IH NL (push_node (note_of c) a) b) as (ns & E1 & E2); [now apply node_fine'|exact FB| |now split|].
    { unfold push_node, commit. rewrite TA. cbn [nodes_of text add_text]. split; [cbn [nodes_of]; rewrite visible_app, V; cbn; apply app_nil_r|]. split; [now rewrite TB|]. intros x r _. exact AS. }
    exists ns. split; [|exact E2]. eapply ends_go; [now apply note_step|]. destruct lns; [easy|]. exact E1.
Qed.
End Runs.

Lemma parse_mixed E s lns lns0 ls : (forall l, ordinary_start (toks l) = true -> stops E l = false) -> (forall c, CommentSpec.comment_line c -> stops E (line_of c) = false) -> calm s -> mixed lns lns0 ls -> ls <> [] ->
  exists ns, parse_inlines_until (enough lns) E [] s lns = Done s ns [] /\ parse_inlines_until (enough lns0) E [] s lns0 = Done s (visible ns) [].
Proof.
  intros FR FC C M NE. destruct (mixed_run E FR FC s C lns lns0 ls M NE acc0 acc0 eq_refl eq_refl ltac:(repeat split; discriminate) ltac:(split; [reflexivity|exact I])) as (ns & E1 & E2). exists ns.
  assert (G : forall x r, ends E [] normal s acc0 None x (Done s r []) -> (exists ln m, x = ln :: m /\ toks ln <> []) -> parse_inlines_until (enough x) E [] s x = Done s r []).
  { intros x r [_ [n H]] (ln & m & -> & T). pose proof (parse_ends E [] s (ln :: m) (enough (ln :: m)) (le_n _)) as PE. unfold parse_inlines_until in *. destruct (toks ln) as [|t q] eqn:TE; [easy|].
    destruct C as (CS & _). rewrite CS in *. set (f := enough (ln :: m)) in *. rewrite <- (go_more E f _ _ _ _ _ _ _ PE (Nat.max f n)) by lia. rewrite (go_more E n) by (try lia; rewrite H; discriminate). exact H. }
  assert (T : forall ln l, of_line ln l -> l <> [] -> forallb item_ok l = true -> toks ln <> []) by (intros ln l (_ & _ & p & prev & T & _) N I Z; pose proof (line_ordinary l p prev N I) as O; rewrite <- T, Z in O; discriminate O).
  split; apply G; try assumption.
  - inversion M as [|ln l ? ? ? O N I M'|c ? ? ? CL M']; subst; [easy| |]; (eexists; eexists; split; [reflexivity|]); [now apply (T ln l)|]. rewrite BlockLinesProps.toks_line. destruct CL as (t & r & -> & _). discriminate.
  - clear - M NE T. induction M as [|ln l ? ? ? O N I M' IH|c ? ? ? CL M' IH]; [easy| |now apply IH]. eexists; eexists; split; [reflexivity|]. now apply (T ln l).
Qed.

(** ** In any state of the parser of blocks that is not in a description list *)
Lemma no_stops P s : BlockModel.in_desc_list s = false -> forall l, match toks l with t :: _ => existsb (kind_eqb (tk t)) (ForwardSlashes :: ordinary) | [] => false end = true -> stops (BlockModel.env_of P s) l = false.
Proof.
  intros D l. cbn [BlockModel.env_of stops]. unfold BlockModel.stops_at, BlockModel.attr_list_line, BlockModel.anchor_line, BlockModel.is_continuation, BlockModel.to_delimiter, is_block_attr_list, is_block_anchor. rewrite D.
  destruct (toks l) as [|t r]; [discriminate|]. intros O. apply existsb_exists in O as (k & I & K). apply kind_eqb_eq in K. subst k.
  assert (N : is_k DelimiterLine t = false /\ is_k OpenBracket t = false /\ is_k Plus t = false) by (unfold is_k; cbn in I; decompose [or] I; try contradiction; (match goal with H : _ = tk t |- _ => rewrite <- H; repeat split end)).
  destruct N as (N1 & N2 & N3). unfold current_is. cbn [hd_error at_k starts_with_seq satisfies]. rewrite ?N1, ?N2, ?N3. cbn [andb orb]. rewrite ?andb_false_r. cbn [andb orb].
  destruct r; rewrite ?N3, ?andb_false_r; cbn [andb orb]; now destruct (BlockModel.delim s).
Qed.
Lemma inlines_mixed P s lns lns0 ls : mixed lns lns0 ls -> ls <> [] -> BlockModel.in_desc_list s = false -> subs_of (BlockModel.ist s) = normal -> ctx_of (BlockModel.ist s) = CNone -> aps_of (BlockModel.ist s) = None ->
  exists ns, BlockModel.inlines P lns s = BlockModel.Yes (ns, []) s /\ BlockModel.inlines P lns0 s = BlockModel.Yes (visible ns, []) s.
Proof.
  intros M NE D S1 S2 S3. destruct (parse_mixed (BlockModel.env_of P s) (BlockModel.ist s) lns lns0 ls) as (ns & E1 & E2).
  - intros l O. apply (no_stops P s D). unfold ordinary_start in O. destruct (toks l); [discriminate O|]. cbn [existsb]. rewrite O. apply orb_true_r.
  - intros c (t & r & -> & K & _). apply (no_stops P s D). rewrite BlockLinesProps.toks_line. cbn [existsb]. now rewrite K.
  - now repeat split.
  - exact M.
  - exact NE.
  - exists ns. unfold BlockModel.inlines. rewrite E1, E2. destruct s. split; reflexivity.
Qed.
