From Verif Require Import InlineModel InlineSpec VerbatimSpec VerbatimProofs PassthruSpec.

Lemma plain_step E q sb s a t r l ls : plain_tok t -> current_is Plus r = false ->
  token_step E q sb s a None t (adv l r) ls = Go s (push_text (tx t) a) None (Some (adv l r)) ls.
Proof.
  intros P N. unfold token_step. cbn [toks adv]. destruct t as [k x i]. cbn [tk tx inf] in *. destruct P as [P|[P LX]]; cbn in P; try cbn in LX; subst k; unfold is_k; cbn [kind_eqb kind_beq tk andb negb orb special_of].
  - destruct (contains sb SpecialChars); reflexivity.
  - rewrite LX, N. cbn [Nat.ltb Nat.leb andb]. destruct (contains sb SpecialChars); reflexivity.
Qed.
Lemma plain_tokens E sb s ls l r : passm l = false -> pluses l = 0 -> current_is Plus r = false -> forall ts a, Forall plain_tok ts ->
  forall f, go (length ts + f) E [] sb s a None (Some (adv l (ts ++ r))) ls = go f E [] sb s (push_text (text_of ts) a) None (Some (adv l r)) ls.
Proof.
  intros P1 P2 R. induction ts as [|t ts IH]; intros a H f.
  - cbn [length Nat.add app]. unfold push_text. cbn [text_of flat_map]. rewrite app_nil_r. now destruct a.
  - pose proof (Forall_inv H) as T. apply Forall_inv_tail in H. cbn [length Nat.add app].
    rewrite go_some by (apply may_pass_plain; assumption). rewrite plain_step; [|assumption|].
    + rewrite IH by assumption. unfold push_text. cbn [text nodes_of text_of flat_map]. now rewrite app_assoc.
    + destruct ts as [|u ts]; [exact R|]. unfold current_is. cbn. unfold is_k. destruct (Forall_inv H) as [-> | [-> _]]; reflexivity.
Qed.
(** copying tokens that are not plus signs or pass: *)
Lemma replace_copy E s ls k l : forall ts done prev rest f,
  Forall plain_tok ts -> replace_pass (length ts + f) E s done prev 0 (adv l (ts ++ rest)) ls k =
  replace_pass f E s (done ++ ts) (match rev ts with t :: _ => Some (tk t) | [] => prev end) 0 (adv l rest) ls k.
Proof.
  induction ts as [|t ts IH]; intros done prev rest f H; [cbn; now rewrite app_nil_r|].
  pose proof (Forall_inv H) as T. apply Forall_inv_tail in H. cbn [length Nat.add app replace_pass toks adv].
  assert (K : is_k MacroName t = false /\ is_k Plus t = false) by (unfold is_k; destruct T as [->|[-> _]]; split; reflexivity). destruct K as [-> ->]. cbn [andb].
  change (adv (adv l (t :: ts ++ rest)) (ts ++ rest)) with (adv l (ts ++ rest)). rewrite IH by assumption. rewrite <- app_assoc. cbn [app rev].
  f_equal. destruct (rev ts) eqn:R; reflexivity.
Qed.
Lemma replace_end E s ls k l done prev n : forall ts f, Forall plain_tok ts ->
  replace_pass (length ts + f) E s done prev n (adv l ts) ls k = k s (restore (new_line (done ++ ts)) ls).
Proof.
  intros ts. revert done prev n. induction ts as [|t ts IH]; intros done prev n f H; [destruct f; cbn; now rewrite app_nil_r|].
  pose proof (Forall_inv H) as T. apply Forall_inv_tail in H. cbn [length Nat.add replace_pass toks adv].
  assert (K : is_k MacroName t = false /\ is_k Plus t = false) by (unfold is_k; destruct T as [->|[-> _]]; split; reflexivity). destruct K as [-> ->]. cbn [andb].
  change (adv (adv l (t :: ts)) ts) with (adv l ts).
  destruct n; rewrite IH by assumption; rewrite <- app_assoc; reflexivity.
Qed.

(** the token that stands for a passthrough *)
Definition place (t : tok) (n : nat) : tok := TokI PreprocPassthru $"^" (Info (repl (inf t)) (at_ (inf t)) (before (inf t)) n).
Lemma stand_in E sb s a l t ns : pass_of s = pass_of s -> nth_error (pass_of s) (slot (inf t)) = Some (ns, false) -> tk t = PreprocPassthru -> forall r ls,
  exists p, token_step E [] sb s a None t (adv l r) ls = Go (set_pass p s) (push_node (NPass ns) a) None (Some (adv l r)) ls.
Proof.
  intros _ H T r ls. unfold token_step. cbn [toks adv]. unfold is_k. rewrite T. cbn [kind_eqb kind_beq andb negb orb special_of]. destruct (contains sb SpecialChars); unfold take_passthru; rewrite H; eexists; reflexivity.
Qed.
Lemma finish_words ns x : finish (push_text x (Acc [NPass ns] [])) None = NPass ns :: text_node x.
Proof. unfold finish, push_unused, commit, add_text, text_node. destruct x; reflexivity. Qed.
Lemma finish_words2 ns x y : finish (push_text y (push_node (NPass ns) (push_text x acc0))) None = text_node x ++ NPass ns :: text_node y.
Proof. unfold finish, push_unused, push_node, commit, add_text, text_node. destruct x, y; reflexivity. Qed.

Section line.
  Variables (E : env) (s : st) (pre body post : list tok) (t : tok) (sb : subs).
  Hypotheses (LS : literal_subs sb) (NC : contains sb Callouts = false) (ST : forall l, stops E l = false)
             (P1 : Forall plain_tok pre) (P2 : Forall plain_tok post) (B : left_alone (contains sb SpecialChars) body) (BN : body <> []) (BC : ~ comment_line body).
  Lemma replaced_line l f1 : toks l <> [] -> at_stop [] (toks l) = false -> is_comment l = false -> may_contain_pass l = Ret true ->
    (forall k, exists K, replace_pass (length (toks l) + total []) E s [] None 0 l [] k = Call (set_subs sb s) [] [new_line body] K /\
       forall ns s1 l1, K ns s1 l1 = k (set_pass (pass_of s1 ++ [(ns, false)]) (set_subs (subs_of s) s1)) (restore (new_line (pre ++ place t (length (pass_of s1)) :: post)) [])) ->
    length pre + length post + length body + 20 <= f1 ->
    exists ns s', parse_inlines_until f1 E [] s [l] = Done s' (text_node (text_of pre) ++ NPass ns :: text_node (text_of post)) [] /\ reads (contains sb SpecialChars) ns (written None body).
  Proof.
    intros N _ IC MC R F.
    assert (INNER : exists ns, reads (contains sb SpecialChars) ns (written None body) /\ forall g, length body + 5 <= g -> go g E [] sb (set_subs sb s) acc0 None None [new_line body] = Done (set_subs sb s) ns []).
    { assert (A0 : so_far (contains sb SpecialChars) acc0 []) by (exists []; split; [constructor|split; [reflexivity|apply nil_fit]]).
      destruct (line_alone E sb (set_subs sb s) [] (new_line body) LS eq_refl eq_refl (length body) body acc0 [] (le_n _) B A0) as (a1 & m & A1 & ML & G). cbn [app] in A1. cbn [joining_newline] in G.
      exists (finish a1 None). split; [now apply so_far_finish|]. intros g Hg. destruct g as [|g]; [lia|]. cbn [go]. unfold step at 1. rewrite ST.
      assert (is_comment (new_line body) = false).
      { unfold is_comment, new_line. cbn [toks]. destruct body as [|u r]; [congruence|]. cbn [starts_with_seq satisfies]. rewrite andb_true_r.
        destruct (is_k ForwardSlashes u && len_is 2 u) eqn:Z; [|now rewrite andb_false_r]. exfalso. apply BC. apply andb_prop in Z as [Z1 Z2].
        exists u, r. split; [reflexivity|]. split; [now apply is_k_true|now apply Nat.eqb_eq]. }
      rewrite H. cbn [andb]. specialize (G (g - S m)). replace (S m + (g - S m)) with g in G by lia. change (adv (new_line body) body) with (new_line body) in G. rewrite G.
      destruct (g - S m) as [|g'] eqn:GE; [lia|]. reflexivity. }
    destruct INNER as (ns & RD & IN).
    unfold parse_inlines_until. destruct (toks l) as [|t0 r0] eqn:TL; [congruence|]. rewrite <- TL in *.
    destruct f1 as [|f1]; [lia|]. cbn [go]. unfold step at 1. rewrite ST, IC. cbn [andb].
    destruct f1 as [|f1]; [lia|]. cbn [go]. unfold step at 1. cbn [at_stop]. rewrite MC. cbn [try].
    destruct (R (fun s ls => Go s acc0 None None ls)) as (K & RK & KK). rewrite RK.
    cbn [new_line toks]. destruct body as [|b0 br] eqn:EB; [congruence|]. rewrite <- EB in *.
    change (subs_of (set_subs sb s)) with sb. change (ILine body (length body) false 0) with (new_line body). rewrite IN by lia. rewrite KK.
    change (pass_of (set_subs sb s)) with (pass_of s). change (set_subs (subs_of s) (set_subs sb s)) with (set_subs (subs_of s) s).
    set (s2 := set_pass (pass_of s ++ [(ns, false)]) (set_subs (subs_of s) s)).
    set (p := place t (length (pass_of s))).
    assert (RS : restore (new_line (pre ++ p :: post)) [] = [new_line (pre ++ p :: post)]) by (unfold restore; cbn [new_line toks]; destruct pre; reflexivity).
    rewrite RS. destruct f1 as [|f1]; [lia|]. cbn [go]. unfold step at 1. rewrite ST.
    assert (IC2 : is_comment (new_line (pre ++ p :: post)) = false).
    { unfold is_comment, new_line. cbn [toks]. destruct pre as [|u r]; cbn [app starts_with_seq satisfies]; [unfold p, is_k; cbn; now rewrite andb_false_r|].
      unfold is_k. destruct (Forall_inv P1) as [-> | [-> _]]; cbn; now rewrite andb_false_r. }
    rewrite IC2. cbn [andb].
    replace f1 with (length pre + (S (length post + (S (S (f1 - length pre - length post - 3)))))) by lia.
    change (new_line (pre ++ p :: post)) with (adv (new_line (pre ++ p :: post)) (pre ++ p :: post)).
    rewrite plain_tokens; [|reflexivity|reflexivity|reflexivity|assumption].
    rewrite go_some by reflexivity.
    destruct (stand_in E (subs_of s) s2 (push_text (text_of pre) acc0) (new_line (pre ++ p :: post)) p ns eq_refl) with (r := post) (ls := @nil iline) as (pp & SI); [|reflexivity|].
    { cbn. rewrite nth_error_app2 by lia. now rewrite Nat.sub_diag. }
    rewrite SI.
    replace (adv (new_line (pre ++ p :: post)) post) with (adv (new_line (pre ++ p :: post)) (post ++ [])) by now rewrite app_nil_r.
    rewrite plain_tokens; [|reflexivity|reflexivity|reflexivity|assumption].
    exists ns, (set_pass pp s2). split; [|exact RD]. cbn [go]. unfold step. cbn [at_stop toks adv]. rewrite may_pass_plain by reflexivity. cbn [try joining_newline].
    now rewrite finish_words2.
  Qed.
End line.

Lemma not_plus k ts : without k ts -> Forall (fun t => is_k k t = false) ts.
Proof.
  intros W. apply Forall_forall. intros t T. destruct (is_k k t) eqn:H; [|reflexivity]. exfalso. apply W. exists t. split; [assumption|now apply is_k_true].
Qed.
Lemma index_after c body pl' post : Forall (fun t => is_k Plus t = false) body -> map tk pl' = repeat Plus (S c) ->
  index_of_seq (repeat (Kind Plus) (S c)) (body ++ pl' ++ post) = Some (length body).
Proof.
  intros F M. induction body as [|b body IH]; cbn [app length].
  - assert (S : starts_with_seq (repeat (Kind Plus) (S c)) (pl' ++ post) = true).
    { clear F. revert pl' M. generalize (S c). induction n as [|n IH]; intros [|p pl] M; try discriminate; [reflexivity|]. cbn in M. injection M as M1 M2.
      cbn [repeat starts_with_seq app satisfies]. unfold is_k. rewrite M1. cbn. now apply IH. }
    destruct pl' as [|p pl']; [discriminate|]. cbn [app index_of_seq] in *. rewrite S. reflexivity.
  - cbn [index_of_seq]. cbn [repeat starts_with_seq satisfies]. rewrite (Forall_inv F). cbn [andb]. change (Kind Plus :: repeat (Kind Plus) c) with (repeat (Kind Plus) (S c)).
    rewrite (IH (Forall_inv_tail F)). reflexivity.
Qed.
Lemma term_here c post whole : forall body i p, Forall (fun t => is_k Plus t = false) body -> tk c = Plus -> length (tx c) = 1 -> at_k Word (hd_error post) = false ->
  match rev body with b :: _ => whitespaceish (Some b) = false | [] => match p with Some p => whitespaceish (Some p) = false | None => False end end ->
  term_in [Len 1 Plus] CNone whole i p (body ++ c :: post) = Some (i + length body).
Proof.
  induction body as [|b body IH]; intros i p F K L W H; cbn [app term_in].
  - cbn [starts_with_seq satisfies]. unfold is_k at 1, len_is. rewrite K, L. cbn. destruct p as [p|]; [|contradiction]. cbn [rev] in H. rewrite W, H. cbn.
    destruct (hd_error post) as [n|]; rewrite ?andb_false_r; cbn; rewrite ?andb_false_r, ?Nat.add_0_r; reflexivity.
  - cbn [starts_with_seq satisfies]. rewrite (Forall_inv F). cbn [andb].
    rewrite IH; [cbn; f_equal; lia|now apply Forall_inv_tail in F|assumption..|].
    cbn [rev] in H. destruct (rev body) as [|z m] eqn:R; [|exact H]. cbn in H. exact H.
Qed.
Lemma pluses_mono ts : forall l, pluses l <= pluses (fold_left push_tok ts l).
Proof.
  induction ts as [|t r IH]; intros l; [reflexivity|]. cbn [fold_left]. etransitivity; [|apply IH]. cbn [push_tok pluses]. destruct (_ && _); lia.
Qed.
Lemma fold_app a : forall b l, fold_left push_tok (a ++ b) l = fold_left push_tok b (fold_left push_tok a l).
Proof. intros. apply fold_left_app. Qed.
Lemma plus_counted l t : tk t = Plus -> length (tx t) = 1 -> at_k Backtick (last_token (toks l)) = false -> pluses l < pluses (push_tok l t) \/ 255 <= pluses (push_tok l t).
Proof.
  intros K L N. cbn [push_tok pluses]. unfold is_k. rewrite K, L, N. change (kind_eqb Plus Plus) with true. change (1 <? 4) with true. cbn [negb andb]. destruct (Nat.ltb_spec (pluses l) 255); lia.
Qed.
Lemma last_plain ts : Forall plain_tok ts -> at_k Backtick (last_token ts) = false.
Proof.
  intros F. unfold last_token. destruct (rev ts) as [|t r] eqn:R; [reflexivity|]. cbn. assert (In t ts) by (apply in_rev; rewrite R; now left).
  eapply Forall_forall in H; [|exact F]. unfold is_k. destruct H as [-> | [-> _]]; reflexivity.
Qed.

Section plus.
  Variables (E : env) (s : st) (pre body post pl pl' : list tok) (esc : bool).
  Hypotheses (ST : forall l, stops E l = false) (P1 : Forall plain_tok pre) (P2 : Forall plain_tok post)
             (B : left_alone esc body) (BP : without Plus body) (BN : body <> []) (BC : ~ comment_line body)
             (O : Forall plus_tok pl) (C : Forall plus_tok pl') (LE : length pl = length pl') (SZ : 1 <= length pl <= 3)
             (ONE : length pl = 1 -> at_k Whitespace (hd_error body) = false /\ at_k Whitespace (last_token body) = false /\ at_k Word (hd_error post) = false /\
                                     (pre = [] \/ at_k Whitespace (last_token pre) = true)).
  Let whole := pre ++ pl ++ body ++ pl' ++ post.
  Lemma plus_kinds l : Forall plus_tok l -> map tk l = repeat Plus (length l).
  Proof. induction 1 as [|x l [K _] F IH]; [reflexivity|]. cbn. now rewrite K, IH. Qed.
  Lemma last_not_space : length pl = 1 -> match rev body with b :: _ => whitespaceish (Some b) = false | [] => False end.
  Proof.
    intros L1. destruct (ONE L1) as (_ & W & _). unfold last_token in W. destruct (rev body) as [|b r] eqn:R; [apply BN; rewrite <- (rev_involutive body), R; reflexivity|].
    cbn in W. unfold whitespaceish, at_k. rewrite W. cbn. destruct (is_k Newline b) eqn:N; [|reflexivity]. exfalso. apply (kinds _ _ B Newline); [cbn; tauto|].
    exists b. split; [apply in_rev; rewrite R; now left|now apply is_k_true].
  Qed.
  Lemma plus_may : may_contain_pass (line_of whole) = Ret true.
  Proof.
    assert (G : 1 <= pluses (line_of whole) /\ (2 <= length pl -> 2 <= pluses (line_of whole))).
    { unfold line_of, whole. destruct pl as [|p1 pl0]; [cbn in SZ; lia|]. pose proof (Forall_inv O) as [K1 L1].
      rewrite fold_app. cbn [app fold_left]. set (l0 := fold_left push_tok pre (new_line [])).
      assert (T0 : toks l0 = pre) by apply (line_of_spec pre).
      assert (C1 : 1 <= pluses (push_tok l0 p1)) by (destruct (plus_counted l0 p1 K1 L1); [rewrite T0; now apply last_plain|lia..]).
      split; [etransitivity; [exact C1|apply pluses_mono]|]. cbn [length]. intros L2. destruct pl0 as [|p2 pl0]; [cbn in L2; lia|]. pose proof (Forall_inv (Forall_inv_tail O)) as [K2 L2'].
      cbn [app fold_left]. etransitivity; [|apply pluses_mono]. destruct (plus_counted (push_tok l0 p1) p2 K2 L2'); [|lia..].
      cbn [push_tok toks]. unfold last_token. rewrite rev_app_distr. cbn [rev app hd_error at_k]. unfold is_k. now rewrite K1. }
    unfold may_contain_pass. destruct (passm (line_of whole)) eqn:PM; cbn [negb andb orb].
    { destruct (pluses (line_of whole) =? 0); reflexivity. }
    destruct (pluses (line_of whole)) as [|[|n]] eqn:PL; [lia| |reflexivity]. cbn [Nat.eqb Nat.ltb Nat.leb].
    assert (L1 : length pl = 1) by lia. rewrite (proj1 (line_of_spec whole)). unfold whole.
    rewrite !rev_app_distr. destruct (rev post) as [|z zs] eqn:RP.
    - cbn [app]. destruct pl' as [|c [|? ?]]; cbn in LE; try lia. pose proof (Forall_inv C) as [KC LC]. cbn [rev app]. unfold is_k at 1, len_is. rewrite KC, LC. cbn [kind_eqb kind_beq Nat.eqb andb].
      pose proof (last_not_space L1) as LW. destruct (rev body) as [|b r]; [contradiction|]. cbn [app]. rewrite LW. reflexivity.
    - cbn [app]. assert (In z post) by (apply in_rev; rewrite RP; now left). eapply Forall_forall in H; [|exact P2]. unfold is_k at 1. destruct H as [-> | [-> _]]; reflexivity.
  Qed.
  Lemma plus_replaced : forall k, exists K, replace_pass (length (toks (line_of whole)) + total []) E s [] None 0 (line_of whole) [] k =
    Call (set_subs (from_pass_plus_len (length pl)) s) [] [new_line body] K /\
    forall ns s1 l1, K ns s1 l1 = k (set_pass (pass_of s1 ++ [(ns, false)]) (set_subs (subs_of s) s1)) (restore (new_line (pre ++ place (hd (Tok Plus []) pl) (length (pass_of s1)) :: post)) []).
  Proof.
    intros k. rewrite (proj1 (line_of_spec whole)). assert (AL : line_of whole = adv (line_of whole) (pre ++ pl ++ body ++ pl' ++ post)).
    { destruct (line_of whole) as [a b c d] eqn:LW. unfold adv. cbn. f_equal. change a with (toks (ILine a b c d)). rewrite <- LW. apply line_of_spec. }
    rewrite AL. clear AL. set (l := line_of whole).
    replace (length whole + total []) with (length pre + (length pl + length body + length pl' + length post)) by (unfold whole, total; rewrite !app_length; cbn; lia).
    rewrite replace_copy by assumption. cbn [app]. set (prev := match rev pre with t :: _ => Some (tk t) | [] => None end).
    assert (PB : could_be_plus prev (tl pl ++ body ++ pl' ++ post) = true /\ plus_run (tl pl ++ body ++ pl' ++ post) = length pl - 1).
    { pose proof (not_plus _ _ BP) as NB. destruct body as [|b0 br]; [congruence|]. apply Forall_inv in NB.
      assert (PK : prev <> Some Backtick) by (unfold prev; destruct (rev pre) as [|z zs] eqn:RP; [discriminate|]; assert (In z pre) by (apply in_rev; rewrite RP; now left); eapply Forall_forall in H; [|exact P1]; destruct H as [-> | [-> _]]; discriminate).
      unfold could_be_plus. replace (match prev with Some Backtick => true | _ => false end) with false by (destruct prev as [[]|]; congruence). cbn [orb].
      destruct pl as [|p1 [|p2 [|p3 [|? ?]]]]; cbn [length] in SZ; try lia; cbn [tl app starts_with_seq satisfies plus_run]; unfold current_is; cbn [hd_error at_k]; rewrite ?NB, ?andb_false_r; cbn [andb negb length Nat.sub].
      - split; [|reflexivity]. destruct (ONE eq_refl) as (_ & _ & _ & Z). unfold prev. destruct Z as [-> |Z]; [reflexivity|]. unfold last_token in Z. destruct (rev pre); [reflexivity|]. cbn in Z. now rewrite (is_k_true _ _ Z).
      - pose proof (Forall_inv (Forall_inv_tail O)) as [K2 _]. unfold is_k. rewrite K2. split; reflexivity.
      - pose proof (Forall_inv (Forall_inv_tail O)) as [K2 _]. pose proof (Forall_inv (Forall_inv_tail (Forall_inv_tail O))) as [K3 _]. unfold is_k. rewrite K2, K3. split; reflexivity. }
    destruct PB as [CB PR].
    assert (PE : plus_end E (length pl) (tl pl ++ body ++ pl' ++ post) [] = Ret (Some (length pl - 1 + length body))).
    { pose proof (not_plus _ _ BP) as NB. pose proof last_not_space as LNS. unfold plus_end. pose proof (plus_kinds _ C) as KC. rewrite <- LE in KC.
      destruct pl as [|p1 [|p2 [|p3 [|? ?]]]]; cbn [length] in SZ |- *; try lia; cbn [Nat.eqb Nat.ltb Nat.leb tl app Nat.sub Nat.add].
      - destruct pl' as [|c [|? ?]]; cbn in LE; try lia. pose proof (Forall_inv C) as [KC' LC]. destruct (ONE eq_refl) as (W1 & W2 & W3 & _).
        assert (NN : current_is Newline (body ++ [c] ++ post) = false).
        { destruct body as [|b0 br]; [congruence|]. unfold current_is. cbn. destruct (is_k Newline b0) eqn:N; [|reflexivity]. exfalso. apply (kinds _ _ B Newline); [cbn; tauto|]. exists b0. split; [now left|now apply is_k_true]. }
        rewrite NN. unfold terminates_in. cbn [app]. rewrite term_here; [cbn; reflexivity|assumption..|].
        pose proof (LNS eq_refl) as LW. destruct (rev body); [contradiction|exact LW].
      - pose proof (Forall_inv (Forall_inv_tail O)) as [K2 _]. pose proof (index_after 1 body pl' post NB KC) as IX. cbn [repeat] in IX |- *. cbn [index_of_seq]. rewrite IX.
        destruct body as [|b0 br]; [congruence|]. cbn [app starts_with_seq satisfies]. rewrite (Forall_inv NB), andb_false_r. reflexivity.
      - pose proof (index_after 2 body pl' post NB KC) as IX. cbn [repeat] in IX |- *. cbn [index_of_seq]. rewrite IX.
        destruct body as [|b0 br]; [congruence|]. cbn [app starts_with_seq satisfies]. rewrite (Forall_inv NB), !andb_false_r. reflexivity. }
    destruct pl as [|p1 pl0] eqn:EPL; [cbn in SZ; lia|]. pose proof (Forall_inv O) as [K1 L1]. cbn [length Nat.add app tl hd] in *.
    cbn [replace_pass toks adv]. unfold is_k at 1. rewrite K1. cbn [kind_eqb kind_beq andb]. unfold is_k at 1. rewrite K1. cbn [kind_eqb kind_beq andb]. rewrite CB.
    replace (S (plus_run (pl0 ++ body ++ pl' ++ post))) with (S (length pl0)) by (rewrite PR; lia). rewrite PE. cbn [try].
    unfold pass_placeholder. cbn [toks adv]. replace (S (length pl0) - 1) with (length pl0) by lia.
    replace (length pl0 + length body <? length pl0) with false by (symmetry; apply Nat.ltb_ge; lia).
    replace (skipn (length pl0) (pl0 ++ body ++ pl' ++ post)) with (body ++ pl' ++ post) by (rewrite skipn_app, skipn_all, Nat.sub_diag; reflexivity).
    replace (length pl0 + length body - length pl0) with (length body) by lia.
    destruct pl' as [|c1 pc] eqn:EPC; [cbn in LE; lia|]. cbn [length app] in LE |- *.
    cbn [take_pass toks adv]. replace (length body <=? length (body ++ c1 :: pc ++ post)) with true by (symmetry; apply Nat.leb_le; rewrite app_length; lia).
    cbn [try app rev toks new_line]. rewrite firstn_app, firstn_all, Nat.sub_diag. cbn [firstn]. rewrite app_nil_r.
    replace (skipn (S (length body)) (body ++ c1 :: pc ++ post)) with (pc ++ post) by (rewrite skipn_app, skipn_all2 by lia; replace (S (length body) - length body) with 1 by lia; reflexivity).
    destruct body as [|b0 br] eqn:EB; [congruence|]. rewrite <- EB in *. change (ILine body (length body) false 0) with (new_line body).
    eexists. split; [reflexivity|]. intros ns s1 l1. cbn beta.
    replace (length pl0 + length body + S (length pc) + length post) with (length post + (length pl0 + length body + S (length pc))) by lia.
    cbn [toks adv]. replace (skipn (length pl0) (pc ++ post)) with post by (replace (length pl0) with (length pc) by lia; rewrite skipn_app, skipn_all, Nat.sub_diag; reflexivity).
    match goal with |- replace_pass _ _ _ _ _ _ ?x _ _ = _ => change x with (adv l post) end.
    rewrite replace_end by assumption. rewrite <- app_assoc. reflexivity.
  Qed.
End plus.

Section macro.
  Variables (E : env) (s : st) (pre target body post : list tok) (name opening closing : tok) (sb : subs) (esc : bool).
  Hypotheses (ST : forall l, stops E l = false) (P1 : Forall plain_tok pre) (P2 : Forall plain_tok post)
             (B : left_alone esc body) (BO : without OpenBracket body) (BK : without CloseBracket body) (BN : body <> []) (BC : ~ comment_line body)
             (NM : tk name = MacroName /\ tx name = $"pass:") (OP : tk opening = OpenBracket) (CL : tk closing = CloseBracket)
             (TG : Forall (fun t => tk t = Word \/ tk t = Comma) target) (SB : from_pass_target (dbg E) (text_of target) = Ret sb).
  Let whole := pre ++ name :: target ++ opening :: body ++ closing :: post.
  Lemma macro_may : may_contain_pass (line_of whole) = Ret true.
  Proof.
    assert (G : passm (line_of whole) = true).
    { unfold line_of, whole. rewrite fold_app. cbn [fold_left]. generalize (fold_left push_tok pre (new_line [])). intros l0. destruct NM as [N1 N2].
      assert (passm (push_tok l0 name) = true) by (cbn [push_tok passm]; unfold is_k; rewrite N1, N2, bytes_eqb_refl; cbn; apply orb_true_r).
      revert H. generalize (push_tok l0 name). generalize (target ++ opening :: body ++ closing :: post). intros m. induction m as [|u m IH]; intros l1 H; [assumption|].
      cbn [fold_left]. apply IH. cbn [push_tok passm]. now rewrite H. }
    unfold may_contain_pass. rewrite G. reflexivity.
  Qed.
  Lemma target_all rest : target_tokens (target ++ opening :: rest) = Some (length target).
  Proof.
    assert (G : forall g, Forall (fun t => tk t = Word \/ tk t = Comma) g -> target_tokens (g ++ opening :: rest) = Some (length g)).
    { intros g H. induction H as [|t r T F IH]; cbn [app target_tokens length].
      - unfold is_k. rewrite OP. reflexivity.
      - unfold is_k, one_of. destruct T as [K|K]; rewrite K; cbn; rewrite IH; reflexivity. }
    exact (G target TG).
  Qed.
  Lemma close_at : close_here OpenBracket 1 1 (body ++ closing :: post) = inl (length body).
  Proof.
    assert (G : forall last n b, kind_eqb last Backslash = false -> Forall (fun t => is_k OpenBracket t = false) b -> Forall (fun t => is_k CloseBracket t = false) b -> (forall t, In t b -> tk t <> Backslash) ->
               close_here last 1 (S n) (b ++ closing :: post) = inl (n + length b)).
    { intros last n b. revert last n. induction b as [|u b IH]; intros last n L F1 F2 F3; cbn [app close_here].
      - unfold is_k. rewrite CL, L. cbn. f_equal. lia.
      - rewrite (Forall_inv F1), (Forall_inv F2). cbn [andb]. rewrite IH; [f_equal; cbn; lia| |now apply Forall_inv_tail in F1|now apply Forall_inv_tail in F2|intros v V; apply F3; now right].
        destruct (kind_eqb_spec (tk u) Backslash) as [Z|]; [|reflexivity]. exfalso. now apply (F3 u (or_introl eq_refl)). }
    apply (G OpenBracket 0 body eq_refl (not_plus _ _ BO) (not_plus _ _ BK)). intros t T K. apply (kinds _ _ B Backslash); [cbn; tauto|]. exists t. auto.
  Qed.
  Lemma macro_end ls : pass_macro_end (target ++ opening :: body ++ closing :: post) ls = Some (length target, length body).
  Proof.
    assert (SK : skipn (S (length target)) (target ++ opening :: body ++ closing :: post) = body ++ closing :: post)
      by (rewrite skipn_app, skipn_all2 by lia; replace (S (length target) - length target) with 1 by lia; reflexivity).
    pose proof (target_all (body ++ closing :: post)) as TA. pose proof close_at as CA.
    remember (target ++ opening :: body ++ closing :: post) as w eqn:EW. destruct w as [|x w]; [clear -EW; destruct target; discriminate|].
    unfold pass_macro_end. rewrite TA, SK, CA. reflexivity.
  Qed.
  Lemma macro_replaced : forall k, exists K, replace_pass (length (toks (line_of whole)) + total []) E s [] None 0 (line_of whole) [] k =
    Call (set_subs sb s) [] [new_line body] K /\
    forall ns s1 l1, K ns s1 l1 = k (set_pass (pass_of s1 ++ [(ns, false)]) (set_subs (subs_of s) s1)) (restore (new_line (pre ++ place name (length (pass_of s1)) :: post)) []).
  Proof.
    intros k. rewrite (proj1 (line_of_spec whole)). assert (AL : line_of whole = adv (line_of whole) (pre ++ name :: target ++ opening :: body ++ closing :: post)).
    { destruct (line_of whole) as [a b c d] eqn:LW. unfold adv. cbn. f_equal. change a with (toks (ILine a b c d)). rewrite <- LW. apply line_of_spec. }
    rewrite AL. clear AL. set (l := line_of whole).
    replace (length whole + total []) with (length pre + S (length target + S (length body + S (length post)))) by (unfold whole, total; rewrite !app_length; cbn; rewrite !app_length; cbn; rewrite app_length; cbn; lia).
    rewrite replace_copy by assumption. cbn [app]. destruct NM as [N1 N2].
    cbn [replace_pass toks adv]. unfold is_k at 1. rewrite N1, N2, bytes_eqb_refl. cbn [kind_eqb kind_beq andb].
    rewrite macro_end. cbn [adv toks].
    replace (skipn (length target) (target ++ opening :: body ++ closing :: post)) with (opening :: body ++ closing :: post) by (rewrite skipn_app, skipn_all, Nat.sub_diag; reflexivity).
    cbn [discard_assert]. unfold is_k at 1. rewrite OP. cbn [kind_eqb kind_beq try].
    replace (firstn (length target) (target ++ opening :: body ++ closing :: post)) with target by (rewrite firstn_app, firstn_all, Nat.sub_diag; cbn; now rewrite app_nil_r).
    rewrite SB. cbn [try]. unfold pass_placeholder. cbn [toks adv Nat.sub skipn Nat.ltb Nat.leb]. replace (length body - 0) with (length body) by lia.
    cbn [take_pass toks adv]. replace (length body <=? length (body ++ closing :: post)) with true by (symmetry; apply Nat.leb_le; rewrite app_length; lia).
    cbn [try app rev toks new_line]. rewrite firstn_app, firstn_all, Nat.sub_diag. cbn [firstn]. rewrite app_nil_r.
    replace (skipn (S (length body)) (body ++ closing :: post)) with post by (rewrite skipn_app, skipn_all2 by lia; replace (S (length body) - length body) with 1 by lia; reflexivity).
    destruct body as [|b0 br] eqn:EB; [congruence|]. rewrite <- EB in *. change (ILine body (length body) false 0) with (new_line body).
    eexists. split; [reflexivity|]. intros ns s1 l1. cbn beta.
    replace (length target + S (length body + S (length post))) with (length post + (length target + S (length body + 1))) by lia.
    match goal with |- replace_pass _ _ _ _ _ _ ?x _ _ = _ => change x with (adv l post) end.
    rewrite replace_end by assumption. rewrite <- app_assoc. reflexivity.
  Qed.
End macro.
