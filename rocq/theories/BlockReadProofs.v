(** An article is read to its end. *)
From Verif Require Import Base BlockModel BlockSpec.
Import ListNotations.

Definition post {A} (Q : A -> pst -> Prop) (o : out A) : Prop := match o with Yes a s => Q a s | _ => True end.
Lemma post_bind {A B} (Q : A -> pst -> Prop) (R : B -> pst -> Prop) o k : post Q o -> (forall a s, Q a s -> post R (k a s)) -> post R (bind o k).
Proof. destruct o; cbn; auto. Qed.
Lemma post_weaken {A} (Q R : A -> pst -> Prop) o : post Q o -> (forall a s, Q a s -> R a s) -> post R o.
Proof. destruct o; cbn; auto. Qed.

(** ** What every call keeps *)
Definition keeps (s s' : pst) : Prop := delim s' = delim s /\ (irregular s -> irregular s').
Lemma keeps_refl s : keeps s s.
Proof. split; auto. Qed.
Lemma keeps_trans a b d : keeps a b -> keeps b d -> keeps a d.
Proof. intros [H1 H2] [H3 H4]. split; [congruence|auto]. Qed.
Lemma k_problem a s p : keeps a s -> keeps a (problem_at p s).
Proof. intros [H1 H2]. split; [exact H1|]. intros H. destruct (H2 H) as [G|[G|G]]; [left; exact G|right; left; exact G|right; right; cbn; apply in_or_app; auto]. Qed.
Lemma k_empty a s : keeps a s -> keeps a (one_empty s).
Proof. intros [H1 H2]. split; [exact H1|]. intros H. left. cbn. lia. Qed.
Lemma k_stray a s : keeps a s -> keeps a (one_stray s).
Proof. intros [H1 H2]. split; [exact H1|]. intros H. right. left. cbn. lia. Qed.
Lemma irr_empty s : irregular (one_empty s).
Proof. left. cbn. lia. Qed.
Lemma irr_stray s : irregular (one_stray s).
Proof. right. left. cbn. lia. Qed.
Lemma irr_anchor s : irregular (problem_at BadAnchor s).
Proof. right. right. cbn. apply in_or_app. right. left. reflexivity. Qed.

Ltac k1 := match goal with
  | |- keeps _ (match ?x with _ => _ end) => destruct x
  | |- keeps _ (problem_at _ _) => apply k_problem
  | |- keeps _ (one_empty _) => apply k_empty
  | |- keeps _ (one_stray _) => apply k_stray
  | H : keeps ?a _ |- keeps ?a _ => exact H
  | |- keeps ?a (with_stk _ ?s) => change (keeps a s)
  | |- keeps ?a (with_level _ ?s) => change (keeps a s)
  | |- keeps ?a (with_bib _ ?s) => change (keeps a s)
  | |- keeps ?a (with_cmt _ ?s) => change (keeps a s)
  | |- keeps ?a (with_ist _ ?s) => change (keeps a s)
  | |- keeps ?a (with_conts _ ?s) => change (keeps a s)
  | |- keeps ?a (set_ist_subs _ ?s) => change (keeps a s)
  end.
Ltac kk := cbv zeta; repeat k1.
Ltac kb L := match goal with |- post (fun _ => keeps ?a) _ => eapply (post_bind (fun _ => keeps a)) end; [apply L; kk|cbv beta; let x := fresh "x" in let s := fresh "s" in let K := fresh "K" in intros x s K].

Lemma read_keeps a s ls s' : keeps a s -> read_lines s = (ls, s') -> keeps a s'.
Proof.
  intros K. unfold read_lines. destruct (peeked s); [|injection 1 as _ <-; exact K]. destruct (skip_empty (src s)) as [|x r]; [injection 1 as _ <-; exact K|]. destruct (group r). injection 1 as _ <-. exact K.
Qed.
Lemma read_until_keeps a d s ls s' : keeps a s -> read_until d s = (ls, s') -> keeps a s'.
Proof.
  intros K. unfold read_until. destruct (read_lines s) as [l1 s1] eqn:E. apply (read_keeps a) in E; [|exact K]. destruct l1; [injection 1 as _ <-; exact E|]. destruct (existsb _ _); [injection 1 as _ <-; exact E|].
  destruct (until_delim d (src s1)). injection 1 as _ <-. exact E.
Qed.
Lemma restore_keeps P a ls s : keeps a s -> post (fun _ => keeps a) (restore_lines P ls s).
Proof. intros K. unfold restore_lines. destruct (peeked s); [exact K|]. destruct (dbg (p_env P)); [exact I|]. destruct ls; exact K. Qed.
Lemma restore_meta_keeps P a m s : keeps a s -> post (fun _ => keeps a) (restore_meta P m s).
Proof. intros K. unfold restore_meta. destruct (meta_empty m); [exact K|]. destruct (pmeta s); [|exact K]. destruct (dbg (p_env P)); [exact I|exact K]. Qed.
Lemma restore_peeked_keeps P a ls m s : keeps a s -> post (fun _ => keeps a) (restore_peeked P ls m s).
Proof. intros K. unfold restore_peeked. kb restore_keeps. apply restore_meta_keeps. exact K0. Qed.
Lemma inlines_keeps P a ls s : keeps a s -> post (fun _ => keeps a) (inlines P ls s).
Proof. intros K. unfold inlines. destruct (parse_inlines_until _ _ _ _ _); [exact K|exact I..]. Qed.
Lemma meta_lines_keeps P a : forall ls m s, keeps a s -> post (fun _ => keeps a) (meta_lines P ls m s).
Proof.
  induction ls as [|l r IH]; intros m s K; cbn [meta_lines]; [exact K|]. destruct (chunk_title l); [kb inlines_keeps; apply IH; exact K0|].
  destruct (attr_list_line l); [destruct (block_attr_list _) as [[? ?]|]; [apply IH; exact K|exact I]|]. destruct (anchor_line l).
  - destruct (parse_anchor _ _) as [[[[i ref]|] ?]|]; [apply IH; exact K|cbn [post]; kk|exact I].
  - destruct (_ && _); [apply IH; exact K|exact K].
Qed.
Lemma chunk_meta_keeps P a ls s : keeps a s -> post (fun _ => keeps a) (chunk_meta P ls s).
Proof.
  intros K. unfold chunk_meta. destruct (pmeta s); [cbn [post]; kk|]. destruct ls as [|l r]; [exact I|]. destruct (toks l); [exact I|]. destruct (unconsumed l); [apply meta_lines_keeps; exact K|exact K].
Qed.

Section Keeps.
Variables (P : params) (rec : parser).
Hypothesis R : forall (A : Set) (c : call A) a s, keeps a s -> post (fun _ => keeps a) (rec A c s).
Lemma rec_keeps (A : Set) (c : call A) a s : keeps a s -> post (fun _ => keeps a) (rec A c s).
Proof. apply R. Qed.
Ltac ks := cbv zeta; repeat first
  [ exact I
  | match goal with
    | |- post _ (Yes _ _) => cbn [post]; kk; fail
    | |- post _ (bind (match ?x with _ => _ end) _) => destruct x
    | |- post _ (bind (bind _ _) _) => idtac "nested"; fail 1
    | |- post _ (bind (Yes _ _) _) => cbn [bind]
    | |- post _ (bind Panics _) => cbn [bind]
    | |- post _ (bind (inlines _ _ _) _) => kb inlines_keeps
    | |- post _ (bind (restore_lines _ _ _) _) => kb restore_keeps
    | |- post _ (bind (restore_meta _ _ _) _) => kb restore_meta_keeps
    | |- post _ (bind (restore_peeked _ _ _ _) _) => kb restore_peeked_keeps
    | |- post _ (bind (chunk_meta _ _ _) _) => kb chunk_meta_keeps
    | |- post _ (bind (rec _ _ _) _) => kb rec_keeps
    | |- post _ (rec _ _ _) => apply rec_keeps; kk; fail
    | |- post _ (let (_, _) := read_lines ?s in _) => let ls := fresh "ls" in let s1 := fresh "s" in let E := fresh "E" in destruct (read_lines s) as [ls s1] eqn:E; match goal with |- post (fun _ => keeps ?a) _ => apply (read_keeps a) in E; [|kk; fail] end
    | |- post _ (match ?x with _ => _ end) => destruct x
    end ].
Lemma paragraph_keeps a ls m s : keeps a s -> post (fun _ => keeps a) (paragraph P ls m s).
Proof. intros K. unfold paragraph. set (l := if _ : bool then _ else ls). clearbody l. ks. Qed.
Lemma quoted_keeps a ls m s : keeps a s -> post (fun _ => keeps a) (quoted P ls m s).
Proof.
  intros K. unfold quoted. destruct (rev ls); [exact I|]. destruct (toks i) as [|d [|w r]]; [exact I..|]. destruct (_ && _); [|exact I]. destruct (split_comma r). kb inlines_keeps.
  eapply post_bind with (Q := fun _ => keeps a); [|cbv beta; intros]; ks.
Qed.
Lemma of_line_keeps a f ls s : keeps a s -> post (fun _ => keeps a) (of_line P f ls s).
Proof. intros K. unfold of_line. ks. Qed.
Lemma plugin_keeps a ls m s : keeps a s -> post (fun _ => keeps a) (plugin_macro ls m s).
Proof. intros K. unfold plugin_macro. ks. Qed.
Lemma discrete_keeps a ls m s : keeps a s -> post (fun _ => keeps a) (discrete_heading P ls m s).
Proof. intros K. unfold discrete_heading. ks. Qed.
Lemma table_keeps a ls m s : keeps a s -> post (fun _ => keeps a) (table P ls m s).
Proof. intros K. unfold table. destruct ls; [exact I|]. destruct (table_lines _ _) as [? [?|]]; [ks|]. destruct (table_src _ _) as [[? ?] ?]. ks. Qed.
Lemma each_keeps a : forall ps s, keeps a s -> post (fun _ => keeps a) (each_paragraph P rec ps s).
Proof. induction ps as [|p r IH]; intros s K; cbn [each_paragraph]; [exact K|]. kb restore_keeps. kb rec_keeps. kb IH. cbn [post]. kk. Qed.
Lemma markdown_keeps a ls m s : keeps a s -> post (fun _ => keeps a) (markdown_quote P rec ls m s).
Proof. intros K. unfold markdown_quote. destruct (peeked s); [|exact I]. kb each_keeps. cbn [post]. kk. Qed.
Lemma delimited_keeps a ls m s : keeps a s -> post (fun _ => keeps a) (delimited P rec ls m s).
Proof.
  intros [K1 K2]. unfold delimited. destruct ls as [|l r]; [exact I|]. destruct (toks l) as [|t af]; [exact I|]. destruct (to_delimiter t) as [d|]; [|exact I]. destruct (fence d af); [|exact I].
  assert (K : keeps (with_delim (Some d) s) (with_delim (Some d) s)) by apply keeps_refl. set (b := with_delim (Some d) s) in *. eapply (post_bind (fun _ => keeps b)); [apply restore_keeps; exact K|]. cbv beta. intros [] s1 Ka.
  assert (F : forall s', keeps b s' -> keeps a (with_delim (delim s) s')). { intros s' [F1 F2]. split; [exact K1|]. intros H. apply F2. apply K2. exact H. }
  clearbody b. set (c := match block_style _ m with Some c => c | None => _ end). clearbody c. eapply post_bind with (Q := fun _ => keeps b).
  { destruct (verbatim_context c); [|ks]. match goal with |- context [read_until d ?z] => destruct (read_until d z) as [vs s3] eqn:V end. apply (read_until_keeps b) in V; [|kk].
    set (s4 := match c with CListing | CLiteral => _ | _ => s3 end). assert (K4 : keeps b s4) by (unfold s4; kk). clearbody s4. ks. }
  cbv beta. intros y s9 Q. match goal with |- context [read_lines ?z] => destruct (read_lines z) as [es s5] eqn:E end. apply (read_keeps b) in E; [|kk]. destruct es as [|e more]; [cbn [post]; apply F; kk|].
  destruct (match delim s5 with Some _ => _ | None => _ end); [|cbn [post]; apply F; kk].
  eapply (post_bind (fun _ => keeps b)); [apply restore_keeps; exact E|]. cbv beta. intros [] s6 Kc. cbn [post]. apply F. exact Kc.
Qed.
Lemma a_list_keeps a ls m s : keeps a s -> post (fun _ => keeps a) (a_list P rec ls m s).
Proof. intros K. unfold a_list. destruct ls; [exact I|]. destruct (list_marker i); [|exact I]. ks. Qed.
Lemma item_blocks_keeps a ls s : keeps a s -> post (fun _ => keeps a) (item_blocks P rec ls s).
Proof.
  intros K. unfold item_blocks. destruct (starts_nested _ _ _); [ks|]. destruct (starts_continuation ls); [ks|]. destruct ls; [|ks]. destruct (read_lines s) as [ls s1] eqn:E. apply (read_keeps a) in E; [|exact K].
  destruct ls; [exact E|]. destruct (starts_nested _ _ _); [|ks]. kb a_list_keeps. cbn [post]. kk.
Qed.
Lemma continuations_keeps a s : keeps a s -> post (fun _ => keeps a) (continuations P rec s).
Proof.
  intros K. unfold continuations. destruct (read_lines s) as [ls s1] eqn:E. apply (read_keeps a) in E; [|exact K]. destruct ls as [|l r]; [exact E|]. destruct (starts_nested _ _ _); [kb a_list_keeps; cbn [post]; kk|]. ks.
Qed.
Lemma desc_term_keeps a l s : keeps a s -> post (fun _ => keeps a) (desc_term P l s).
Proof. intros K. unfold desc_term. ks. Qed.
Lemma extra_keeps a m s : keeps a s -> post (fun _ => keeps a) (extra_terms P rec m s).
Proof.
  intros K. unfold extra_terms. destruct (read_lines s) as [ls s1] eqn:E. apply (read_keeps a) in E; [|exact K]. destruct ls as [|l r]; [exact E|]. destruct (starts_extra _ _); [|ks]. destruct (drop_comments _); [exact I|].
  kb desc_term_keeps. ks.
Qed.
Lemma desc_blocks_keeps a s : keeps a s -> post (fun _ => keeps a) (desc_blocks P rec s).
Proof. intros K. unfold desc_blocks. ks. Qed.
Lemma desc_item_keeps a mk l r s : keeps a s -> post (fun _ => keeps a) (desc_item P rec mk l r s).
Proof.
  intros K. unfold desc_item. kb desc_term_keeps. eapply post_bind with (Q := fun _ => keeps a); [ks|]. cbv beta. intros more s2 Q. kb rec_keeps. kb desc_blocks_keeps. cbn [post]. kk.
Qed.
Lemma list_item_keeps a m s : keeps a s -> post (fun _ => keeps a) (list_item P rec m s).
Proof.
  intros K. unfold list_item. destruct (read_lines s) as [ls s1] eqn:E. apply (read_keeps a) in E; [|exact K]. destruct ls as [|l r]; [exact E|]. destruct (list_marker l) as [mk|]; [|ks]. destruct (negb _); [ks|].
  destruct (is_description m); [kb desc_item_keeps; cbn [post]; kk|]. destruct (consume_until _ _) as [[? ?]|]; [|exact I]. destruct (discard_assert _ _) as [rest2|]; [|exact I].
  set (cr := match m with LS.Star _ | LS.Dash => _ | _ => _ end); clearbody cr; destruct cr as [? ?].
  destruct (principle_lines r) as [more r2]. kb inlines_keeps. kb item_blocks_keeps. cbn [post]. kk.
Qed.
Lemma peek_keeps a s : keeps a s -> post (fun _ => keeps a) (peek_section P rec s).
Proof. intros K. unfold peek_section. ks. Qed.
Lemma peeked_keeps a p s : keeps a s -> post (fun _ => keeps a) (peeked_to_section P rec p s).
Proof. intros K. unfold peeked_to_section. ks. Qed.
Lemma section_keeps a s : keeps a s -> post (fun _ => keeps a) (section P rec s).
Proof. intros K. unfold section. kb rec_keeps. destruct x as [p|]; [|cbn [post]; kk]. destruct (semantic p =? 0); [destruct (book P); [ks|]|]; (kb peeked_keeps; cbn [post]; kk). Qed.
Lemma chunk_keeps a ls m s : keeps a s -> post (fun _ => keeps a) (chunk P rec ls m s).
Proof.
  intros K. unfold chunk. destruct ls as [|l r] eqn:L; [exact I|]. destruct (toks l) as [|t ts] eqn:T; [exact I|]. rewrite <- L. rewrite <- T.
  destruct (is_block_macro _); [destruct (existsb _ _); [apply of_line_keeps|apply plugin_keeps]; exact K|]. destruct (starts_list ls); [kb a_list_keeps; cbn [post]; kk|].
  destruct (_ && is_discrete m); [apply discrete_keeps; exact K|]. destruct (is_k DelimiterLine t); [destruct (match delim s with Some _ => _ | None => _ end); [ks|apply delimited_keeps; exact K]|].
  destruct (LineModel.one_of _ t && _); [apply table_keeps; exact K|]. destruct (is_k GreaterThan t && _); [apply markdown_keeps; exact K|]. destruct (is_k AttrDef t); [ks|].
  destruct (_ && thematic _); [apply of_line_keeps; exact K|]. destruct (is_quoted _ _); [apply quoted_keeps; exact K|]. apply paragraph_keeps. exact K.
Qed.
Lemma block_keeps a s : keeps a s -> post (fun _ => keeps a) (block P rec s).
Proof.
  intros K. unfold block. destruct (read_lines s) as [ls s1] eqn:E. apply (read_keeps a) in E; [|exact K]. destruct ls as [|l r]; [exact E|]. destruct (comment_block _); [|ks]. kb chunk_meta_keeps.
  destruct (snd x) as [|l2 r2]; [apply rec_keeps; kk|]. destruct (section_start _ _ _) as [lv|]; [|apply chunk_keeps; kk]. destruct (_ && is_some _); [apply chunk_keeps; kk|]. kb restore_peeked_keeps. destruct (_ || _); [cbn [post]; kk|].
  kb section_keeps. ks.
Qed.
Lemma sectioned_keeps a s : keeps a s -> post (fun _ => keeps a) (sectioned rec s).
Proof. intros K. unfold sectioned. ks. Qed.
Lemma special_keeps a s : keeps a s -> post (fun _ => keeps a) (special_sect P rec s).
Proof. intros K. unfold special_sect. kb rec_keeps. destruct x as [p|]; [|cbn [post]; kk]. destruct (special P p); [kb peeked_keeps; cbn [post]; kk|ks]. Qed.
Lemma part_keeps a s : keeps a s -> post (fun _ => keeps a) (book_part P rec s).
Proof. intros K. unfold book_part. kb rec_keeps. destruct x as [p|]; [|cbn [post]; kk]. destruct (_ || _); [ks|]. destruct (ps_lines p); [exact I|]. destruct (toks i); [exact I|]. destruct (discard_assert _ _); [|exact I]. kb inlines_keeps. kb sectioned_keeps. cbn [post]. kk. Qed.
Lemma book_keeps a s : keeps a s -> post (fun _ => keeps a) (parse_book P rec s).
Proof.
  intros K. unfold parse_book. destruct (negb _); [exact K|]. kb rec_keeps. destruct (_ && _); [cbn [post]; kk|]. kb part_keeps. destruct x0; [ks|]. kb rec_keeps. destruct x0; [kb restore_peeked_keeps; kb sectioned_keeps; cbn [post]; kk|]. ks.
Qed.
Lemma step_keeps (A : Set) (c : call A) a s : keeps a s -> post (fun _ => keeps a) (step P rec A c s).
Proof.
  intros K. destruct c; cbn [step].
  - apply block_keeps. exact K.
  - unfold one_more. ks.
  - kb list_item_keeps. unfold one_more. ks.
  - apply continuations_keeps. exact K.
  - apply extra_keeps. exact K.
  - apply peek_keeps. exact K.
  - kb section_keeps. unfold one_more. ks.
  - kb special_keeps. unfold one_more. ks.
  - kb part_keeps. unfold one_more. ks.
  - apply book_keeps. exact K.
Qed.
End Keeps.
Lemma run_keeps P : forall n (A : Set) (c : call A) a s, keeps a s -> post (fun _ => keeps a) (run n P A c s).
Proof. induction n as [|n IH]; intros A c a s K; [exact I|]. cbn [run]. apply step_keeps; [exact IH|exact K]. Qed.

(** ** Why the blocks of an article end *)
Lemma skip_empty_nil : forall l, skip_empty l = [] -> forallb emptyish l = true.
Proof. induction l as [|x r IH]; cbn; [auto|]. destruct (emptyish x); [auto|discriminate]. Qed.
Lemma nil_skip_empty : forall l, forallb emptyish l = true -> skip_empty l = [].
Proof. induction l as [|x r IH]; cbn; [auto|]. destruct (emptyish x); [auto|discriminate]. Qed.
Lemma read_nil s s' : read_lines s = ([], s') -> all_read s'.
Proof.
  unfold read_lines. destruct (peeked s) eqn:K; [|discriminate]. destruct (skip_empty (src s)) as [|x r] eqn:E; [|destruct (group r); discriminate]. injection 1 as <-. split; [exact K|reflexivity].
Qed.
Lemma read_all s : all_read s -> exists s', read_lines s = ([], s') /\ all_read s'.
Proof. intros [H1 H2]. unfold read_lines. rewrite H1, (nil_skip_empty _ H2). eexists. split; [reflexivity|]. split; [exact H1|reflexivity]. Qed.

Section Article.
Variables (P : params).
Hypothesis article : book P = false.
Definition heads (s : pst) : Prop := is_some (start_level P (peeked s)) = true /\ (pmeta s = None \/ heading_first P (peeked s) = true).
Definition stopped (s : pst) : Prop := irregular s \/ all_read s \/ heads s.

Lemma kind_eqb_eq a b : kind_eqb a b = true -> a = b.
Proof. destruct (kind_eqb_spec a b); [auto|discriminate]. Qed.
Lemma heading_kind l n : unadjusted_level l = Some n -> exists t r, l = t :: r /\ (tk t = EqualSigns \/ tk t = Hash).
Proof.
  unfold unadjusted_level. destruct l as [|t r]; [cbn; discriminate|]. intros H. exists t, r. split; [reflexivity|]. destruct (starts_with_seq _ _) eqn:A.
  - left. cbn in A. apply andb_prop in A. apply kind_eqb_eq. apply A.
  - right. cbn [andb] in H. destruct (current_is Hash (t :: r)) eqn:B; [|discriminate]. apply kind_eqb_eq. exact B.
Qed.
Lemma heading_plain l n : heading_level P (toks l) = Some n -> is_comment l = false /\ chunk_title l = false /\ attr_list_line l = false /\ anchor_line l = false /\ toks l <> [].
Proof.
  unfold heading_level. destruct (unadjusted_level (toks l)) as [k|] eqn:U; [|discriminate]. intros _. destruct (heading_kind _ _ U) as (t & r & E & K). unfold is_comment, chunk_title, attr_list_line, is_block_attr_list, anchor_line, is_block_anchor. rewrite E.
  cbn [starts_with_seq satisfies current_is hd_error at_k]. unfold is_k. destruct K as [-> | ->]; cbn; rewrite ?andb_false_r; destruct r; (repeat split; discriminate).
Qed.
Lemma start_drop : forall ls, start_level P (drop_comments ls) = start_level P ls.
Proof. induction ls as [|l r IH]; [reflexivity|]. cbn [drop_comments]. destruct (is_comment l) eqn:E; [|reflexivity]. cbn [start_level]. rewrite E, !orb_true_r. exact IH. Qed.
Lemma drop_first : forall ls l r, drop_comments ls = l :: r -> is_comment l = false.
Proof. induction ls as [|x ls IH]; intros l r; cbn; [discriminate|]. destruct (is_comment x) eqn:E; [apply IH|]. injection 1 as <- _. exact E. Qed.
Definition at_heading (ls : list iline) : Prop := exists l r n, ls = l :: r /\ heading_level P (toks l) = Some n.
Lemma at_heading_first ls : at_heading ls -> heading_first P ls = true.
Proof. intros (l & r & n & -> & H). unfold heading_first. cbn [drop_comments]. destruct (heading_plain _ _ H) as (-> & _). rewrite H. reflexivity. Qed.

Definition begun (m : meta) : bool := match m_attrs m with [] => false | _ => true end || is_some (m_title m).
Lemma begun_app x y t : begun (Meta (x ++ [y]) t) = true.
Proof. destruct x; reflexivity. Qed.
Lemma begun_title x t : begun (Meta x (Some t)) = true.
Proof. apply orb_true_r. Qed.
(** attribute lists, anchors and titles before a heading: the heading comes next *)
Lemma meta_heading : forall ls m s, is_some (start_level P ls) = true -> (begun m = true \/ match ls with l :: _ => is_comment l = false | [] => True end) ->
  post (fun x s' => irregular s' \/ at_heading (snd x)) (meta_lines P ls m s).
Proof.
  induction ls as [|l r IH]; intros m s H C; cbn [meta_lines]; [discriminate H|]. cbn [start_level] in H. destruct (chunk_title l) eqn:T.
  { rewrite orb_true_r in H. eapply (post_bind (fun _ _ => True)); [destruct (inlines _ _ _); exact I|]. intros x s1 _. apply IH; [exact H|left; apply begun_title]. }
  destruct (attr_list_line l) eqn:A.
  { destruct (block_attr_list _) as [[a ?]|]; [|exact I]. apply IH; [exact H|left; apply begun_app]. }
  destruct (anchor_line l) eqn:N.
  { destruct (parse_anchor _ _) as [[[[i ref]|] ?]|]; [|cbn [post]; left; apply irr_anchor|exact I].
    cbn [orb] in H. destruct (is_comment l) eqn:CM; [|destruct (heading_level P (toks l)) as [n|] eqn:L; [|discriminate H]; destruct (heading_plain _ _ L) as (_ & _ & _ & Z & _); congruence].
    exfalso. revert CM N. clear. unfold is_comment, anchor_line, is_block_anchor. destruct (toks l) as [|t x]; [cbn; rewrite andb_false_r; discriminate|]. cbn [starts_with_seq satisfies]. unfold is_k. destruct (unconsumed l); [|discriminate].
    destruct (tk t); discriminate. }
  cbn [orb] in H. destruct (is_comment l) eqn:CM.
  - destruct C as [C|C]; [|congruence]. fold (begun m). rewrite C. cbn [andb]. apply IH; [exact H|left; exact C].
  - cbn [andb post]. right. destruct (heading_level P (toks l)) as [n|] eqn:L; [|discriminate H]. exists l, r, n. auto.
Qed.
Lemma chunk_meta_heading ls s : is_some (start_level P ls) = true -> match ls with l :: _ => is_comment l = false | [] => True end -> (pmeta s = None \/ heading_first P ls = true) ->
  post (fun x s' => irregular s' \/ at_heading (snd x)) (chunk_meta P ls s).
Proof.
  intros H C D. unfold chunk_meta. destruct (pmeta s) as [m|].
  - destruct D as [D|D]; [discriminate|]. rewrite D. cbn [post snd]. right. unfold heading_first in D. destruct ls as [|l r]; [discriminate|]. cbn [drop_comments] in D. rewrite C in D. destruct (heading_level P (toks l)) as [n|] eqn:L; [|discriminate]. exists l, r, n. auto.
  - destruct ls as [|l r]; [exact I|]. destruct (toks l) eqn:T; [exact I|]. destruct (unconsumed l) eqn:U; [apply meta_heading; auto|]. cbn [post snd]. right. cbn [start_level] in H. rewrite C in H. unfold attr_list_line in H. rewrite U in H.
    assert (Z : chunk_title l = false) by (unfold chunk_title; rewrite U; destruct (toks l) as [|? [|? ?]]; [reflexivity..|apply andb_false_r]).
    rewrite Z in H. cbn [andb orb] in H. destruct (heading_level P (toks l)) as [n|] eqn:L; [|discriminate]. exists l, r, n. auto.
Qed.

Section Rec.
Variable rec : parser.
Hypothesis RK : forall (A : Set) (c : call A) a s, keeps a s -> post (fun _ => keeps a) (rec A c s).
Hypothesis RB : forall s, delim s = None -> post (fun b s' => b = None -> stopped s') (rec _ Block s).
Hypothesis RL : forall s, delim s = None -> post (fun _ s' => stopped s') (rec _ BlockLoop s).
Hypothesis RP : forall s, post (fun p s' => (heads s -> p = None -> irregular s') /\ (all_read s -> p = None /\ all_read s')) (rec _ Peek s).
Hypothesis RS : forall s, delim s = None -> stopped s -> post (fun _ s' => irregular s' \/ all_read s') (rec _ SectionLoop s).

Lemma post_and {A} (Q R : A -> pst -> Prop) o : post Q o -> post R o -> post (fun a s => Q a s /\ R a s) o.
Proof. destruct o; cbn; auto. Qed.
Lemma rec_delim (A : Set) (c : call A) s (Q : A -> pst -> Prop) : post Q (rec A c s) -> post (fun x s' => Q x s' /\ keeps s s') (rec A c s).
Proof. intros H. apply post_and; [exact H|]. apply (RK A c s s). apply keeps_refl. Qed.

Lemma peek_read s : post (fun p s' => (heads s -> p = None -> irregular s') /\ (all_read s -> p = None /\ all_read s')) (peek_section P rec s).
Proof.
  unfold peek_section. destruct (read_lines s) as [ls s1] eqn:E. destruct ls as [|l r].
  { cbn [post]. split; [|intros _; split; [reflexivity|apply (read_nil _ _ E)]]. intros [H _] _. exfalso. unfold read_lines in E. destruct (peeked s); [discriminate H|discriminate E]. }
  assert (NA : ~ all_read s). { intros G. destruct (read_all _ G) as (s2 & G1 & _). congruence. }
  assert (HE : heads s -> peeked s = l :: r /\ s1 = with_peeked [] s). { intros [H _]. unfold read_lines in E. destruct (peeked s); [discriminate H|]. injection E as <- <- <-. auto. }
  destruct (drop_comments (l :: r)) as [|l1 r1] eqn:D.
  { eapply post_weaken; [apply RP|]. cbv beta. intros p s2 _. split; [|contradiction]. intros H _. exfalso. destruct (HE H) as [G _]. destruct H as [H _]. rewrite G, <- start_drop, D in H. discriminate. }
  eapply (post_bind (fun x s' => heads s -> irregular s' \/ at_heading (snd x))).
  { destruct (chunk_meta P (l1 :: r1) s1) as [x s2| |] eqn:M; [|exact I..]. cbn [post]. intros H. destruct (HE H) as [G1 G2]. destruct H as [H1 H2]. rewrite G1 in *. pose proof (chunk_meta_heading (l1 :: r1) s1) as Z. rewrite M in Z. apply Z.
    - rewrite <- D, start_drop. exact H1.
    - apply (drop_first _ _ _ D).
    - subst s1. cbn. destruct H2 as [H2|H2]; [left; exact H2|right]. unfold heading_first in *. rewrite D in H2. cbn [drop_comments]. rewrite (drop_first _ _ _ D). exact H2. }
  cbv beta. intros x s2 H. destruct (snd x) as [|l2 r2] eqn:X.
  - assert (G : keeps s2 (if meta_empty (fst x) then s2 else problem_at Unattached s2)) by (pose proof (keeps_refl s2); kk). eapply post_bind; [apply (restore_meta_keeps P _ _ _ G)|]. cbv beta. intros [] s3 [_ K]. cbn [post]. split; [|contradiction]. intros Hh _. apply K. destruct (H Hh) as [Z|(? & ? & ? & Z & _)]; [exact Z|discriminate].
  - destruct (heading_level P (toks l2)) as [n|] eqn:L; [cbn [post]; split; [discriminate|contradiction]|]. eapply post_bind; [apply (restore_peeked_keeps P _ _ _ _ (keeps_refl s2))|]. cbv beta. intros [] s3 [_ K]. cbn [post]. split; [|contradiction].
    intros Hh _. apply K. destruct (H Hh) as [Z|(? & ? & ? & [= <- <-] & Z)]; [exact Z|congruence].
Qed.
Lemma peeked_read p s : delim s = None -> post (fun _ s' => stopped s' /\ delim s' = None) (peeked_to_section P rec p s).
Proof.
  intros D. apply (post_weaken (fun _ s' => stopped s' /\ keeps s s')); [|intros x s' [H1 [H2 _]]; split; [exact H1|congruence]]. apply post_and; [|apply (peeked_keeps P rec RK s); apply keeps_refl].
  unfold peeked_to_section. destruct (ps_lines p) as [|l r]; [exact I|]. destruct (heading_text l); [|exact I]. cbv zeta. pose proof (keeps_refl s) as K.
  eapply (post_bind (fun _ => keeps s)); [apply inlines_keeps; kk|]. cbv beta. intros x s1 K1. eapply (post_bind (fun _ => keeps s)); [apply restore_keeps; kk|]. cbv beta. intros [] s2 K2.
  eapply post_bind; [apply RL; destruct K2; congruence|]. cbv beta. intros bs s3 S3. cbn [post]. exact S3.
Qed.
Lemma section_read s : delim s = None -> stopped s -> post (fun x s' => match x with Some _ => stopped s' | None => irregular s' \/ all_read s' end /\ delim s' = None) (section P rec s).
Proof.
  intros D H. unfold section. eapply post_bind; [apply (rec_delim _ _ _ _ (RP s))|]. cbv beta. intros p s1 ((G1 & G2) & (G3 & G4)). rewrite D in G3. destruct p as [p|].
  - rewrite article. assert (Q : forall s, delim s = None -> post (fun x s' => match x with Some _ => stopped s' | None => irregular s' \/ all_read s' end /\ delim s' = None) (take (x, s) := peeked_to_section P rec p s in Yes (Some x) s)).
    { intros s2 D2. eapply post_bind; [apply peeked_read; exact D2|]. cbv beta. intros x s3 Z. exact Z. }
    destruct (semantic p =? 0); apply Q; exact G3.
  - cbn [post]. split; [|exact G3]. destruct H as [H|[H|H]]; [left; auto|right; apply G2; exact H|left; apply G1; auto].
Qed.
Lemma chunk_none ls m s : delim s = None -> post (fun b s' => b = None -> irregular s') (chunk P rec ls m s).
Proof.
  intros D. unfold chunk. destruct ls as [|l r] eqn:L; [exact I|]. destruct (toks l) as [|t ts] eqn:T; [exact I|]. rewrite <- L. rewrite <- T.
  assert (S : forall (A : Set) (o : out A) f (g : A -> pst -> pst), post (fun b s' => b = None -> irregular s') (take (x, s) := o in Yes (Some (f x s : blk)) (g x s))) by (intros A o f g; destruct o; cbn; [discriminate|exact I..]).
  assert (O : forall f, post (fun b s' => b = None -> irregular s') (of_line P f ls s)). { intros f. unfold of_line. destruct ls as [|x y]; [exact I|]. destruct (restore_lines P y s); cbn; [discriminate|exact I..]. }
  destruct (is_block_macro _). { destruct (existsb _ _); [apply O|]. unfold plugin_macro. destruct ls; cbn; [exact I|discriminate]. }
  destruct (starts_list ls). { destruct (a_list P rec ls (Some m) s); cbn; [discriminate|exact I..]. }
  destruct (_ && is_discrete m).
  { unfold discrete_heading. destruct ls as [|x y]; [exact I|]. destruct (toks x) as [|? [|? ?]]; [exact I..|]. destruct (_ && _); [|exact I]. destruct (inlines P _ s); [|exact I..]. cbn [bind]. destruct (restore_lines P y _); cbn; [discriminate|exact I..]. }
  destruct (is_k DelimiterLine t).
  { rewrite D. unfold delimited. destruct ls as [|x y]; [exact I|]. destruct (toks x) as [|t0 af]; [exact I|]. destruct (to_delimiter t0); [|exact I]. destruct (fence _ _); [|exact I]. destruct (restore_lines P y _); [|exact I..]. cbn [bind]. cbv zeta.
    match goal with |- post _ (bind ?o _) => destruct o end; [|exact I..]. cbn [bind]. destruct (read_lines _) as [[|e more] s5]; [cbn; discriminate|]. destruct (match delim s5 with Some _ => _ | None => _ end); [|cbn; discriminate]. destruct (restore_lines P more s5); cbn; [discriminate|exact I..]. }
  destruct (LineModel.one_of _ t && _).
  { unfold table. destruct ls as [|x y]; [exact I|]. destruct (table_lines _ _) as [? [?|]]; [destruct (restore_lines P _ s); cbn; [discriminate|exact I..]|]. destruct (table_src _ _) as [[? ?] ?]. cbn. discriminate. }
  destruct (is_k GreaterThan t && _). { unfold markdown_quote. destruct (peeked s); [|exact I]. destruct (each_paragraph P rec _ _); cbn; [discriminate|exact I..]. }
  destruct (is_k AttrDef t). { destruct (restore_lines P r s); cbn; [discriminate|exact I..]. }
  destruct (_ && thematic _); [apply O|]. destruct (is_quoted _ _).
  { unfold quoted. destruct (rev ls); [exact I|]. destruct (toks i) as [|d [|w z]]; [exact I..|]. destruct (_ && _); [|exact I]. destruct (split_comma z). destruct (inlines P _ s); [|exact I..]. cbn [bind].
    match goal with |- post _ (bind ?o _) => destruct o end; [|exact I..]. cbn [bind]. cbv zeta. destruct (rev l0); [exact I|]. destruct (toks i0); [exact I|]. destruct (inmd _); [destruct (inlines P _ _); cbn; [discriminate|exact I..]|].
    destruct (is_k DoubleQuote _); [|exact I]. destruct (_ && _); [exact I|]. destruct (inlines P _ _); cbn; [discriminate|exact I..]. }
  unfold paragraph. cbv zeta. destruct (paragraph_context m _) as [c ls2]. destruct (inlines P ls2 _) as [x s1| |]; [|exact I..]. cbn [bind]. destruct (fst x).
  - destruct (restore_lines P (snd x) _); [|exact I..]. cbn [bind post]. intros _. apply irr_empty.
  - destruct (restore_lines P (snd x) _); cbn; [discriminate|exact I..].
Qed.

(** the lines of a group after its attribute lists: a heading comes first if a section starts here and there are attributes *)
Lemma meta_exit : forall ls m s, (begun m = true \/ match ls with l :: _ => is_comment l = false | [] => True end) ->
  post (fun x s' => irregular s' \/ (is_some (start_level P (snd x)) = true -> at_heading (snd x))) (meta_lines P ls m s).
Proof.
  induction ls as [|l r IH]; intros m s C; cbn [meta_lines]; [cbn [post snd]; right; discriminate|]. destruct (chunk_title l) eqn:T.
  { eapply (post_bind (fun _ _ => True)); [destruct (inlines _ _ _); exact I|]. intros x s1 _. apply IH. left. apply begun_title. }
  destruct (attr_list_line l) eqn:A.
  { destruct (block_attr_list _) as [[a ?]|]; [|exact I]. apply IH. left. apply begun_app. }
  destruct (anchor_line l) eqn:N.
  { destruct (parse_anchor _ _) as [[[[i ref]|] ?]|]; [|cbn [post]; left; apply irr_anchor|exact I]. apply IH. left. apply begun_app. }
  destruct (is_comment l) eqn:CM.
  - destruct C as [C|C]; [|congruence]. fold (begun m). rewrite C. cbn [andb]. apply IH. left. exact C.
  - cbn [andb post snd]. right. cbn [start_level]. rewrite T, A, CM. cbn [orb]. intros H. destruct (heading_level P (toks l)) as [n|] eqn:L; [|discriminate]. exists l, r, n. auto.
Qed.
Lemma chunk_meta_exit ls s : peeked s = [] ->
  post (fun x s' => peeked s' = [] /\ pmeta s' = None /\ (irregular s' \/ meta_empty (fst x) = true \/ (is_some (start_level P (snd x)) = true -> heading_first P (snd x) = true))) (chunk_meta P ls s).
Proof.
  intros K. unfold chunk_meta. destruct (pmeta s) as [m|] eqn:PM.
  - cbn [post snd]. destruct (heading_first P ls) eqn:F; cbn; (repeat split; auto). left. apply irr_stray.
  - destruct ls as [|l r]; [exact I|]. destruct (toks l) eqn:T; [exact I|]. destruct (unconsumed l) eqn:U; [|cbn; auto].
    assert (Q : forall ls m s, peeked s = [] -> pmeta s = None -> post (fun _ s' => peeked s' = [] /\ pmeta s' = None) (meta_lines P ls m s)).
    { clear. induction ls as [|l r IH]; intros m s K1 K2; cbn [meta_lines]; [cbn; auto|]. destruct (chunk_title l). { unfold inlines. destruct (parse_inlines_until _ _ _ _ _); cbn [bind]; [apply IH; [exact K1|exact K2]|exact I..]. }
      destruct (attr_list_line l); [destruct (block_attr_list _) as [[? ?]|]; [apply IH; auto|exact I]|]. destruct (anchor_line l).
      - destruct (parse_anchor _ _) as [[[[i ref]|] ?]|]; [apply IH; auto|cbn; auto|exact I].
      - destruct (_ && _); [apply IH; auto|cbn; auto]. }
    destruct (is_comment l) eqn:CM.
    + assert (M : meta_lines P (l :: r) no_meta s = Yes (no_meta, l :: r) s).
      { cbn [meta_lines]. revert CM. unfold is_comment, chunk_title, attr_list_line, is_block_attr_list, anchor_line, is_block_anchor. rewrite T. cbn [starts_with_seq satisfies current_is hd_error at_k]. unfold is_k. rewrite U. cbn [andb].
        destruct (tk t); try discriminate; destruct l0; cbn; rewrite ?andb_false_r; reflexivity. }
      rewrite M. cbn. auto.
    + apply (post_weaken (fun x s' => (irregular s' \/ (is_some (start_level P (snd x)) = true -> at_heading (snd x))) /\ peeked s' = [] /\ pmeta s' = None)).
      * apply post_and; [apply meta_exit; right; exact CM|apply Q; assumption].
      * intros x s' [H [H1 H2]]. repeat split; [exact H1|exact H2|]. destruct H as [H|H]; [left; exact H|right; right; intros G; apply at_heading_first, H, G].
Qed.
Lemma block_none s : delim s = None -> post (fun b s' => b = None -> stopped s') (block P rec s).
Proof.
  intros D. unfold block. destruct (read_lines s) as [ls s1] eqn:E. destruct ls as [|l r]; [cbn [post]; intros _; right; left; apply (read_nil _ _ E)|].
  assert (K : peeked s1 = []). { unfold read_lines in E. destruct (peeked s) eqn:K; [|injection E as _ _ <-; reflexivity]. destruct (skip_empty (src s)); [discriminate|]. destruct (group _). injection E as _ _ <-. exact K. }
  pose proof (read_keeps s s _ _ (keeps_refl s) E) as [D1 _]. rewrite D in D1.
  destruct (comment_block _) as [ls2|]; [|destruct (pmeta s1) as [m|]; [destruct (meta_empty m)|]; cbn; (exact I || discriminate)].
  eapply post_bind; [apply post_and; [apply (chunk_meta_exit ls2 s1 K)|apply (chunk_meta_keeps P s1 ls2 s1 (keeps_refl s1))]|]. cbv beta. intros x s2 ((K2 & M2 & H) & (D2 & _)). rewrite D1 in D2.
  assert (C : post (fun b s' => b = None -> stopped s') (chunk P rec (snd x) (fst x) s2)) by (eapply post_weaken; [apply chunk_none; exact D2|]; cbv beta; intros b s' Z ->; left; auto).
  destruct (snd x) as [|l2 r2] eqn:X; [apply RB; exact D2|]. rewrite <- X in *. destruct (section_start P (snd x) (fst x)) as [lv|] eqn:SS; [|exact C]. rewrite D2. cbn [is_some]. rewrite andb_false_r.
  unfold section_start in SS. destruct (is_discrete (fst x)); [discriminate|].
  eapply (post_bind (fun _ s' => stopped s')).
  { unfold restore_peeked, restore_lines. rewrite K2. cbn [bind]. unfold restore_meta. destruct (meta_empty (fst x)) eqn:ME; cbn [post].
    - right. right. split; [cbn; rewrite SS; reflexivity|left; exact M2].
    - cbn [with_peeked pmeta]. rewrite M2. cbn [post]. destruct H as [H|[H|H]]; [left; exact H|congruence|]. right. right. split; [cbn; rewrite SS; reflexivity|right]. cbn. apply H. rewrite SS. reflexivity. }
  cbv beta. intros [] s3 S3. destruct (_ || _); [cbn [post]; auto|]. destruct (section P rec s3) as [[z|] s4| |]; cbn; (exact I || discriminate).
Qed.
Lemma step_read (A : Set) (c : call A) s : delim s = None ->
  post (match c in call T return T -> pst -> Prop with
        | Block => fun b s' => b = None -> stopped s'
        | BlockLoop => fun _ s' => stopped s'
        | SectionLoop => fun _ s' => stopped s -> irregular s' \/ all_read s'
        | _ => fun _ _ => True
        end) (step P rec A c s).
Proof.
  intros D. destruct c; cbn [step]; try (match goal with |- post _ ?o => destruct o; exact I end).
  - apply block_none. exact D.
  - eapply post_bind; [apply (rec_delim _ _ _ _ (RB s D))|]. cbv beta. intros b s1 [H [D1 _]]. rewrite D in D1. unfold one_more. destruct b as [b|]; [|cbn [post]; auto]. eapply post_bind; [apply RL; exact D1|]. cbv beta. intros r s2 Z. exact Z.
  - destruct (section P rec s) as [x s1| |] eqn:E; [|exact I..]. cbn [bind]. unfold one_more. destruct x as [x|].
    + destruct (rec _ SectionLoop s1) as [r s2| |] eqn:F; [|exact I..]. cbn [bind post]. intros H. pose proof (section_read s D H) as Z. rewrite E in Z. cbn [post] in Z. destruct Z as [Z1 Z2]. pose proof (RS s1 Z2 Z1) as Y. rewrite F in Y. exact Y.
    + cbn [post]. intros H. pose proof (section_read s D H) as Z. rewrite E in Z. apply Z.
Qed.
End Rec.
Lemma run_read : forall n s, delim s = None ->
  post (fun b s' => b = None -> stopped s') (run n P _ Block s) /\ post (fun _ s' => stopped s') (run n P _ BlockLoop s) /\
  (stopped s -> post (fun _ s' => irregular s' \/ all_read s') (run n P _ SectionLoop s)).
Proof.
  assert (RP : forall n s, post (fun p s' => (heads s -> p = None -> irregular s') /\ (all_read s -> p = None /\ all_read s')) (run n P _ Peek s)).
  { induction n as [|n IH]; intros s; [exact I|]. cbn [run step]. apply peek_read. exact IH. }
  induction n as [|n IH]; intros s D; [cbn; auto|]. cbn [run].
  assert (A : forall (A : Set) (c : call A) s, delim s = None -> _) by (exact (step_read (run n P) (run_keeps P n) (fun s D => proj1 (IH s D)) (fun s D => proj1 (proj2 (IH s D))) (RP n) (fun s D => proj2 (proj2 (IH s D))))).
  repeat split; [exact (A _ Block s D)|exact (A _ BlockLoop s D)|]. intros H. pose proof (A _ SectionLoop s D) as Z. cbv beta in Z. destruct (step P (run n P) (list sect) SectionLoop s); [|exact I..]. exact (Z H).
Qed.
Lemma document_read n sb l c s : document n P (fresh sb l) = Yes c s -> all_read s \/ irregular s.
Proof.
  unfold document. destruct n as [|n]; [discriminate|]. cbn [run step]. unfold parse_book. rewrite article. cbn [negb bind]. unfold sectioned.
  change (step P (run n P)) with (run (S n) P). destruct (run_read (S n) (fresh sb l) eq_refl) as (_ & H & _). destruct (run (S n) P (list blk) BlockLoop (fresh sb l)) as [bs s1| |] eqn:E; [|discriminate..]. cbn [bind post] in *.
  assert (D : delim s1 = None). { pose proof (run_keeps P (S n) _ BlockLoop (fresh sb l) (fresh sb l) (keeps_refl _)) as K. rewrite E in K. apply K. }
  destruct (run_read (S n) s1 D) as (_ & _ & G). specialize (G H). destruct (run (S n) P (list sect) SectionLoop s1) as [ss s2| |]; [|discriminate..]. cbn [bind post] in *. injection 1 as _ <-. tauto.
Qed.
End Article.
