(** Proofs about C64, first part: what each call of the semantic HTML backend does to the open elements and to the other buffer. *)
From Verif Require Import Base AttrsModel EvalModel EscapeModel EvalSpec HtmlModel HtmlSpec HtmlScanProofs HtmlTagProofs HtmlCallProofs Html5sModel Html5sSpec.
Open Scope string_scope.
Open Scope nat_scope.
Open Scope list_scope.

(** What a command does to the other buffer: nothing that can be seen, at most empty it, empty it. *)
Inductive effect := Keep | May | Clear.
Definition settles (e : effect) (c : cmd) : Prop := forall h h', c h = Ret h' ->
  match e with
  | Keep => alt h' = alt h \/ bytes_of (alt h) = [] /\ alt h' = []
  | May => alt h' = alt h \/ alt h' = []
  | Clear => alt h' = []
  end.
Definition mv (e : effect) (a X : list bytes) (c : cmd) (Y : list bytes) : Prop := go a X c Y /\ settles e c.

Lemma se_keep c : settles Keep c -> settles May c.
Proof. intros H h h' E. destruct (H h h' E) as [->|(_ & ->)]; auto. Qed.
Lemma se_may c : settles Clear c -> settles May c.
Proof. intros H h h' E. right. exact (H h h' E). Qed.
Lemma se_bind_same e c d : settles e c -> settles e d -> settles e (bind c d).
Proof.
  intros F G h h' E. unfold bind in E. destruct (c h) as [s|] eqn:C; [|discriminate E]. specialize (F h s C). specialize (G s h' E).
  destruct e; [|destruct G as [->| ->]; auto|exact G].
  destruct G as [->|(G & ->)]; [exact F|]. destruct F as [E1|(F & _)]; [right; now rewrite E1 in G|auto].
Qed.
Lemma se_bind_l c d : settles Clear c -> settles May d -> settles Clear (bind c d).
Proof. intros F G h h' E. unfold bind in E. destruct (c h) as [s|] eqn:C; [|discriminate E]. specialize (F h s C). destruct (G s h' E) as [E1|E1]; [|exact E1]. cbn in *. now rewrite E1. Qed.
Lemma se_bind_r c d : settles Clear d -> settles Clear (bind c d).
Proof. intros G h h' E. unfold bind in E. destruct (c h) as [s|] eqn:C; [|discriminate E]. exact (G s h' E). Qed.
Lemma se_nothing : settles Keep nothing.
Proof. intros h h' E. injection E as <-. now left. Qed.
Lemma se_panic e : settles e (fun _ => Panic).
Proof. intros h h' E. discriminate E. Qed.
Lemma se_look e g : (forall s, settles e (g s)) -> settles e (look g).
Proof. intros H h h' E. exact (H h h h' E). Qed.
Lemma se_ok g : (forall s, alt (g s) = alt s) -> settles Keep (ok g).
Proof. intros H h h' E. injection E as <-. left. apply H. Qed.
Lemma se_put ps : settles Keep (put ps).
Proof. now apply se_ok. Qed.
Lemma se_flags g : settles Keep (change_flags g).
Proof. now apply se_ok. Qed.
Lemma se_pop : settles Keep pop5.
Proof. now apply se_ok. Qed.
Lemma se_truncate n : settles Keep (truncate5 n).
Proof. apply se_look. intros s. cbv beta zeta; match goal with |- context [if ?c then _ else _] => destruct c end; [apply se_panic|now apply se_ok]. Qed.
Lemma se_discard : settles Clear discard_alt_buffer.
Proof. intros h h' E. now injection E as <-. Qed.
Lemma se_swap_discard : settles Clear swap_discard_alt_buffer.
Proof. intros h h' E. unfold swap_discard_alt_buffer in E. now injection E as <-. Qed.
Ltac sek :=
  lazymatch goal with
  | |- settles _ (put _) => apply se_put
  | |- settles _ pop5 => apply se_pop
  | |- settles _ (truncate5 _) => apply se_truncate
  | |- settles _ nothing => apply se_nothing
  | |- settles _ (all []) => apply se_nothing
  | |- settles _ Ret => apply se_nothing
  | |- settles _ (fun _ => Panic) => apply se_panic
  | |- settles _ (change_flags _) => apply se_flags
  | |- settles _ (ok _) => apply se_ok; let s := fresh in intros s; repeat match goal with |- context [if ?c then _ else _] => destruct c end; reflexivity
  | |- settles _ (bind _ _) => apply se_bind_same; sek
  | |- settles _ (all (_ :: _)) => apply se_bind_same; sek
  | |- settles _ (look _) => apply se_look; let s := fresh "s" in intros s; cbv beta zeta; sek
  | |- settles _ (if ?c then _ else _) => destruct c; sek
  | |- settles _ (match ?c with _ => _ end) => destruct c; sek
  | |- settles _ default_newlines => apply se_ok; reflexivity
  | |- settles _ preserve_newlines => apply se_ok; reflexivity
  | |- settles _ _ => solve [eauto]
  end.
Ltac sem :=
  lazymatch goal with
  | |- settles May (bind _ _) => apply se_bind_same; sem
  | |- settles May (all (_ :: _)) => apply se_bind_same; sem
  | |- settles May (look _) => apply se_look; let s := fresh "s" in intros s; cbv beta zeta; sem
  | |- settles May (if ?c then _ else _) => destruct c; sem
  | |- settles May (match ?c with _ => _ end) => destruct c; sem
  | |- settles May discard_alt_buffer => apply se_may, se_discard
  | |- settles May swap_discard_alt_buffer => apply se_may, se_swap_discard
  | |- settles May _ => first [solve [eauto] | apply se_keep; sek]
  end.
Ltac see :=
  lazymatch goal with
  | |- settles Clear (bind _ _) => first [apply se_bind_l; [solve [see]|sem] | apply se_bind_r; see]
  | |- settles Clear (all (_ :: _)) => first [apply se_bind_l; [solve [see]|sem] | apply se_bind_r; see]
  | |- settles Clear (look _) => apply se_look; let s := fresh "s" in intros s; cbv beta zeta; see
  | |- settles Clear (if ?c then _ else _) => destruct c; see
  | |- settles Clear (match ?c with _ => _ end) => destruct c; see
  | |- settles Clear discard_alt_buffer => apply se_discard
  | |- settles Clear swap_discard_alt_buffer => apply se_swap_discard
  | |- settles Clear (fun _ => Panic) => apply se_panic
  | |- settles Clear _ => solve [eauto]
  end.

(** ** Taking the end of a tag off *)
Lemma cut_last l s n : String.length s = n -> 0 < n -> cut n (l ++ [Lit s]) = l.
Proof.
  intros <- P. unfold cut. rewrite rev_app_distr. cbn [rev app]. destruct (String.length s) as [|k] eqn:L; [inversion P|]. cbn [cut_rev bytes_of_piece].
  assert (E : length (b s) = S k). { rewrite <- L. clear. unfold b. induction s as [|c s IH]; [reflexivity|cbn; now rewrite IH]. }
  change (list_ascii_of_string s) with (b s). rewrite E, Nat.leb_refl, Nat.sub_diag. destruct (rev l) eqn:R; cbn [cut_rev]; rewrite <- ?R; rewrite ?rev_involutive; [|reflexivity].
  apply (f_equal (@rev piece)) in R. rewrite rev_involutive in R. now rewrite R.
Qed.
Definition at_tag (n : bytes) (X : list bytes) (a : list bytes) f m c x (h : hst) : Prop :=
  exists m', A (Out, opens n X) a f m c x h /\ exists l, html h = l ++ [Lit ">"] /\ pscan (Out, []) l = Some (m', X) /\ intag n m'.
Definition in_tag (n : bytes) (X : list bytes) (a : list bytes) f m c x (h : hst) : Prop := exists m', intag n m' /\ A (m', X) a f m c x h.
Lemma end_intag n m' X : intag n m' -> pscan (m', X) [Lit ">"] = Some (Out, opens n X).
Proof. intros I. exact (attrs_end [] n m' X attrs_nil I). Qed.
Lemma tri_at_tag n q z X a f m c x : (exists m', pscan q z = Some (m', X) /\ intag n m') -> tri (A q a f m c x) (put (z ++ [Lit ">"])) (at_tag n X a f m c x).
Proof.
  intros (m' & S & I) h h' H E. exists m'. split.
  - refine (tri_put _ _ _ _ _ _ _ _ _ h h' H E). eapply pscan_seq; [exact S|apply end_intag, I].
  - injection E as <-. exists (html h ++ z). cbn [html set_html]. split; [now rewrite app_assoc|]. split; [|exact I]. rewrite pscan_app. destruct H as (-> & _). exact S.
Qed.
Lemma tri_pop n X a f m c x : tri (at_tag n X a f m c x) pop5 (in_tag n X a f m c x).
Proof. apply tri_ok. intros s (m' & (_ & H) & l & E & S & I). exists m'. split; [exact I|]. split; [|exact H]. cbn [html set_html]. now rewrite E, (cut_last l ">" 1 eq_refl (Nat.lt_0_succ 0)). Qed.
Lemma tri_reput n z X a f m c x : (forall m', intag n m' -> exists m1, intag n m1 /\ pscan (m', X) z = Some (m1, X)) -> tri (in_tag n X a f m c x) (put (z ++ [Lit ">"])) (at_tag n X a f m c x).
Proof.
  intros H h h' (m' & I & B) E. destruct (H m' I) as (m1 & I1 & S). exists m1. split.
  - refine (tri_put _ _ _ _ _ _ _ _ _ h h' B E). eapply pscan_seq; [exact S|apply end_intag, I1].
  - injection E as <-. exists (html h ++ z). cbn [html set_html]. split; [now rewrite app_assoc|]. split; [|exact I1]. rewrite pscan_app. destruct B as (-> & _). exact S.
Qed.
Lemma tri_at_out n X a f m c x d Q : tri (A (Out, opens n X) a f m c x) d Q -> tri (at_tag n X a f m c x) d Q.
Proof. intros H h h' (m' & B & _) E. exact (H h h' B E). Qed.
Lemma tri_in_out n X a f m c x ps Y : (forall m', intag n m' -> pscan (m', X) ps = Some (Out, Y)) -> tri (in_tag n X a f m c x) (put ps) (A (Out, Y) a f m c x).
Proof. intros H h h' (m' & I & B) E. exact (tri_put _ _ _ _ _ _ _ _ (H m' I) h h' B E). Qed.
Lemma element_unclosed n l t X : tag_ok n t -> exists m', pscan (Out, X) (unclosed (o_classes l t)) = Some (m', X) /\ intag n m'.
Proof. intros H. destruct (ok_unclosed n _ (ok_classes n l t H) X) as (m' & S & I). eauto. Qed.

(** ** Titles *)
Section Titles.
  Context (D : details).
  Definition tt5 (d : nat) : effect := if n_title D d then Clear else May.
  Lemma go_title_of5 title d h6 a X : closed title -> go a X (render_block_title5 D title d h6) X.
  Proof. intros C. unfold go, render_block_title5. apply st_look. intros s. cbv zeta. destruct h6, (captioned (n_context D d)); cbn [if_pieces]; go0. Qed.
  Lemma se_title_of title d h6 : settles Keep (render_block_title5 D title d h6).
  Proof. unfold render_block_title5. sek. Qed.
  Lemma go_title5 d h6 X : go [] X (block_title5 D d h6) X.
  Proof.
    unfold go, block_title5. destruct (n_title D d); [|apply st_nothing]. intros f m cl x. apply tri_look. intros s S. eapply tri_bind; [apply tri_discard|]. apply go_title_of5. apply S.
  Qed.
  Lemma se_title d h6 : settles May (block_title5 D d h6).
  Proof. unfold block_title5. destruct (n_title D d); [|apply se_keep, se_nothing]. apply se_look. intros s. apply se_bind_same; [apply se_may, se_discard|apply se_keep, se_title_of]. Qed.
  Lemma se_titled d h6 : n_title D d = true -> settles Clear (block_title5 D d h6).
  Proof. intros E. unfold block_title5. rewrite E. apply se_look. intros s. apply se_bind_l; [apply se_discard|apply se_keep, se_title_of]. Qed.
End Titles.
#[export] Hint Resolve se_title se_titled : core.
Ltac go2 :=
  lazymatch goal with
  | |- stays _ _ (all []) _ => apply st_nil
  | |- stays _ _ (all (_ :: _)) _ => eapply st_cons; [go2|go2]
  | |- stays _ _ (bind _ _) _ => eapply st_bind; [go2|go2]
  | |- stays _ _ nothing _ => apply st_nothing
  | |- stays _ _ (fun _ => Panic) _ => apply st_panic
  | |- stays _ _ (put _) _ => apply st_put; cbv zeta; sc
  | |- stays _ _ (look _) _ => apply st_look; let s := fresh "s" in intros s; cbv beta zeta; go2
  | |- stays _ _ (ok _) _ => apply st_ok; aside
  | |- stays _ _ (if ?c then _ else _) _ => destruct c; go2
  | |- stays _ _ (match ?c with _ => _ end) _ => destruct c; go2
  | |- stays _ _ (block_title5 _ _ _) _ => eapply go_title5
  | |- stays _ _ _ _ => eauto
  end.
(** a command that does not depend on the title *)
Ltac mk := intros; split; [unfold go; cbn [if_pieces negb andb orb Nat.eqb app]; go2|sek].
Ltac mt D d := intros; unfold tt5, by_title, end_tag; destruct (n_title D d) eqn:?NT; split; [unfold go; cbn [if_pieces negb andb orb Nat.eqb]; go2|see|unfold go; cbn [if_pieces negb andb orb Nat.eqb]; go2|sem].
(** an end that depends on it *)
Ltac me D d := intros; unfold by_title, end_tag; destruct (n_title D d) eqn:?NT; split; [unfold go; cbn [if_pieces negb andb orb Nat.eqb]; go2|sek|unfold go; cbn [if_pieces negb andb orb Nat.eqb]; go2|sek].

Section Calls5.
  Context (D : details) (debug : bool).
  Definition by_tag (yes : string) (d : nat) : bytes := b (by_title D yes d).

  (** ** Blocks *)
  Lemma mv_sidebar d X : mv (tt5 D d) [] X (enter_sidebar_block5 D d) (b "aside" :: X).
  Proof. unfold enter_sidebar_block5. mt D d. Qed.
  Lemma mv_sidebar' a X : mv Keep a (b "aside" :: X) exit_sidebar_block5 X.
  Proof. unfold exit_sidebar_block5. mk. Qed.
  Lemma mv_literal d X : mv (tt5 D d) [] X (enter_literal_block5 D d) (b "pre" :: by_tag "section" d :: X).
  Proof. unfold enter_literal_block5, by_tag, preserve_newlines. mt D d. Qed.
  Lemma mv_literal' d a X : mv Keep a (b "pre" :: by_tag "section" d :: X) (exit_literal_block5 D d) X.
  Proof. unfold exit_literal_block5, by_tag, default_newlines. me D d. Qed.
  Lemma mv_quoted_paragraph d X : mv (tt5 D d) [] X (enter_quoted_paragraph5 D d) (b "p" :: b "blockquote" :: b "div" :: X).
  Proof. unfold enter_quoted_paragraph5. mt D d. Qed.
  Lemma mv_quoted_paragraph' a X : mv Keep a (b "blockquote" :: b "div" :: X) exit_quoted_paragraph5 X.
  Proof. unfold exit_quoted_paragraph5. mk. Qed.
  Lemma mv_quote d X : mv (tt5 D d) [] X (enter_quote_block5 D d) (b "blockquote" :: by_tag "section" d :: X).
  Proof. unfold enter_quote_block5, by_tag. mt D d. Qed.
  Lemma mv_quote' d a X : mv Keep a (b "blockquote" :: by_tag "section" d :: X) (exit_quote_block5 D d) X.
  Proof. unfold exit_quote_block5, by_tag. me D d. Qed.
  Definition att_stack (d : nat) (X : list bytes) : list bytes := if is_quoted_paragraph D d then b "p" :: X else X.
  Lemma mv_attribution d a X : mv Keep a (att_stack d X) (enter_quote_attribution5 D d) (b "cite" :: b "footer" :: X).
  Proof. unfold enter_quote_attribution5, att_stack. destruct (is_quoted_paragraph D d); mk. Qed.
  Lemma mv_attribution0' a X : mv Keep a (b "cite" :: b "footer" :: X) (exit_quote_attribution5 0) X.
  Proof. unfold exit_quote_attribution5. mk. Qed.
  Lemma mv_attribution1' a X : mv Keep a X (exit_quote_attribution5 1) X.
  Proof. unfold exit_quote_attribution5. mk. Qed.
  Lemma mv_cite1 a X : mv Keep a X (enter_quote_cite5 1) X.
  Proof. unfold enter_quote_cite5. mk. Qed.
  Lemma mv_cite0 a X : mv Keep a X (enter_quote_cite5 0) (b "cite" :: b "footer" :: X).
  Proof. unfold enter_quote_cite5. mk. Qed.
  Lemma mv_cite' a X : mv Keep a (b "cite" :: b "footer" :: X) exit_quote_cite5 X.
  Proof. unfold exit_quote_cite5. mk. Qed.
  Lemma mv_verse d v X : mv (tt5 D d) [] X (enter_verse_block5 D d v) (b "pre" :: (if v =? 1 then b "blockquote" :: b "div" :: X else b "div" :: X)).
  Proof. unfold enter_verse_block5. destruct (v =? 1); mt D d. Qed.
  Lemma mv_verse' d v a X : n_title D d = false -> mv Keep a (if v =? 1 then b "blockquote" :: b "div" :: X else b "div" :: X) (exit_verse_block5 D d v) X.
  Proof. intros E. unfold exit_verse_block5, by_title. rewrite E. destruct (v =? 1); mk. Qed.
  Definition example_stack5 (d : nat) (X : list bytes) : list bytes := if n_option D d "collapsible" then b "div" :: b "details" :: X else b "div" :: by_tag "figure" d :: X.
  Lemma mv_example d X : mv (tt5 D d) [] X (enter_example_block5 D d) (example_stack5 d X).
  Proof.
    unfold enter_example_block5, example_stack5, by_tag. destruct (n_option D d "collapsible"); [|mt D d].
    split; [|unfold tt5; destruct (n_title D d); [see|sem]].
    intros f m c x. unfold open_element. rewrite finish_eq.
    eapply tri_cons; [apply (tri_at_tag (b "details")); apply element_unclosed; apply ok_id; [reflexivity|starts]|].
    apply tri_cons with (A (Out, b "details" :: X) [] f m c x).
    { destruct (n_option D d "open"); [|exact (tri_at_out (b "details") X [] f m c x _ _ (tri_nothing _))]. eapply tri_bind; [apply tri_pop|].
      apply (tri_in_out (b "details")). intros m' [->| ->]; lit. }
    apply tri_cons with (A (Out, b "details" :: X) [] f m c x).
    { destruct (n_title D d); [|apply tri_nothing]. apply tri_look. intros s S. eapply tri_bind; [apply tri_discard|]. apply tri_put.
      eapply pscan_seq; [lit|]. eapply pscan_seq; [apply anywhere, S|lit]. }
    eapply tri_cons; [apply tri_put; lit|apply tri_nil].
  Qed.
  Lemma mv_example' d a X : mv Keep a (example_stack5 d X) (exit_example_block5 D d) X.
  Proof. unfold exit_example_block5, example_stack5, by_tag. destruct (n_option D d "collapsible"); [mk|me D d]. Qed.
  Definition open_stack5 (d : nat) (X : list bytes) : list bytes := if is_abstract D d then b "blockquote" :: by_tag "section" d :: X else b "div" :: b "div" :: X.
  Lemma mv_open d X : mv (tt5 D d) [] X (enter_open_block5 D d) (open_stack5 d X).
  Proof. unfold enter_open_block5, open_stack5, by_tag. destruct (is_abstract D d); mt D d. Qed.
  Lemma mv_open' d a X : mv Keep a (open_stack5 d X) (exit_open_block5 D d) X.
  Proof. unfold exit_open_block5, open_stack5, by_tag. destruct (is_abstract D d); [me D d|mk]. Qed.
  Definition simple_stack (d : nat) (X : list bytes) : list bytes := if is_quote D d then b "p" :: X else X.
  Lemma mv_simple d a X : mv Keep a X (enter_simple_block_content5 D d) (simple_stack d X).
  Proof. unfold enter_simple_block_content5, simple_stack. destruct (is_quote D d); mk. Qed.
  Lemma mv_simple' d a X : is_verse D d = false -> mv Keep a (simple_stack d X) (exit_simple_block_content5 D d) X.
  Proof. intros V. unfold exit_simple_block_content5, simple_stack, default_newlines. rewrite V. destruct (is_quote D d); mk. Qed.
  Lemma mv_simple_verse' d a X : is_quote D d = false -> is_verse D d = true -> mv Keep a (b "pre" :: X) (exit_simple_block_content5 D d) X.
  Proof. intros Q V. unfold exit_simple_block_content5, default_newlines. rewrite V, Q. mk. Qed.
  (** listings: the code element is open when the flag is set *)
  Definition open_listing (v : bool) (d : nat) (X : list bytes) : list bytes := code_if v (b "pre" :: by_tag "figure" d :: X).
  Lemma tri_listing5 d X f m c x : f_source f = false ->
    tri (A (Out, X) [] f m c x) (enter_listing_block5 D d) (fun h => exists v, A (Out, open_listing v d X) [] (with_source v f) m c x h).
  Proof.
    intros F. unfold enter_listing_block5, open_listing, by_tag. eapply tri_cons; [apply tri_put; unfold by_title; instantiate (1 := (Out, b (by_title D "figure" d) :: X)); unfold by_title; destruct (n_title D d); sc|].
    eapply tri_cons; [apply go_title5|]. eapply tri_cons; [apply tri_put; instantiate (1 := (Name (b "pre"), b (by_title D "figure" d) :: X)); lit|].
    apply tri_cons with (fun h => exists (v : bool) m', intag (if v then b "code" else b "pre") m' /\ A (m', (if v then [b "pre"] else []) ++ b (by_title D "figure" d) :: X) [] (with_source v f) m c x h).
    - apply tri_look. intros s S. destruct (_ || _).
      + intros h h' H E. exists true.
        destruct (attrs_opt (or_else (n_opt D d "language") (m_str (dm s) "source-language")) language_classes ltac:(intros; apply attrs_to; lit2) (b "code") (Name (b "code")) (b "pre" :: b (by_title D "figure" d) :: X) ltac:(now left)) as (m' & I & E').
        exists m'. split; [exact I|]. refine (tri_bind _ _ _ _ _ _ (tri_flags _ _ _ _ _ _ _) h h' H E). apply tri_put.
        eapply pscan_seq; [lit|]. eapply pscan_seq; [sc|]. eapply pscan_seq; [sc|]. eapply pscan_seq; [sc|]. eapply pscan_seq; [lit|]. exact E'.
      + intros h h' H E. injection E as <-. exists false, (Name (b "pre")). split; [now left|]. assert (W : with_source false f = f) by (destruct f; cbn in *; now subst). rewrite W. exact H.
    - apply tri_cons with (fun h => exists v, A (Out, open_listing v d X) [] (with_source v f) m c x h); [|apply tri_nil].
      intros h h' (v & m' & I & H) E. exists v. refine (tri_put _ _ _ _ _ _ _ _ _ h h' H E). rewrite (end_intag _ m' _ I). destruct v; reflexivity.
  Qed.
  Lemma se_listing d : settles (tt5 D d) (enter_listing_block5 D d).
  Proof. unfold tt5, enter_listing_block5. destruct (n_title D d) eqn:NT; [see|sem]. Qed.
  Lemma tri_listing5' v d X f m c x :
    tri (A (Out, open_listing v d X) [] (with_source v f) m c x) (exit_listing_block5 D d) (A (Out, X) [] (with_source false f) m c x).
  Proof.
    unfold exit_listing_block5, open_listing, by_tag. apply tri_cons with (A (Out, b "pre" :: b (by_title D "figure" d) :: X) [] (with_source false f) m c x).
    - apply tri_look. intros s (_ & _ & _ & -> & _). cbn [f_source with_source]. destruct v; cbn [code_if].
      + eapply tri_bind; [apply tri_flags|]. apply tri_put. lit.
      + apply tri_nothing.
    - unfold by_title, end_tag. destruct (n_title D d); (eapply tri_cons; [apply tri_put; lit|]; eapply tri_cons; [apply tri_put; lit|apply tri_nil]).
  Qed.
  Lemma se_listing' d : settles Keep (exit_listing_block5 D d).
  Proof. unfold exit_listing_block5. sek. Qed.
  (** ** What is written ends with the end tag of a division *)
  Definition ends_div (X : list bytes) (ps : pieces) : Prop := exists l, ps = l ++ [Lit "</div>"] /\ pscan (Out, []) l = Some (Out, b "div" :: X).
  Lemma ends_listing v d X f m c x : n_title D d = false ->
    tri (A (Out, open_listing v d X) [] (with_source v f) m c x) (exit_listing_block5 D d) (fun h => ends_div X (html h)).
  Proof.
    intros T. unfold exit_listing_block5, open_listing, by_tag, by_title. rewrite T. apply tri_cons with (A (Out, b "pre" :: b "div" :: X) [] (with_source false f) m c x).
    - apply tri_look. intros s (_ & _ & _ & -> & _). cbn [f_source with_source]. destruct v; cbn [code_if].
      + eapply tri_bind; [apply tri_flags|]. apply tri_put. lit.
      + apply tri_nothing.
    - eapply tri_cons; [apply tri_put; instantiate (1 := (Out, b "div" :: X)); lit|]. eapply tri_cons; [|apply tri_nil]. intros h h' (H & _) E. injection E as <-. cbn [html set_html].
      exists (html h). now split.
  Qed.
  Lemma ends_literal d X a f m c x : n_title D d = false -> tri (A (Out, b "pre" :: by_tag "section" d :: X) a f m c x) (exit_literal_block5 D d) (fun h => ends_div X (html h)).
  Proof.
    intros T. unfold exit_literal_block5, by_tag, by_title. rewrite T. apply tri_cons with (fun h => ends_div X (html h)).
    - intros h h' (H & _) E. injection E as <-. cbn [html set_html]. exists (html h ++ [Lit "</pre>"]). split; [now rewrite <- app_assoc|]. rewrite pscan_app, H. lit.
    - intros h h' H E. unfold default_newlines in E. injection E as <-. exact H.
  Qed.
  Lemma tri_callouts5 d X a f m c x : tri (fun h => A (Out, X) a f m c x h /\ ends_div X (html h)) (enter_callout_list5 D d) (A (Out, b "ol" :: b "div" :: X) a f m c x).
  Proof.
    unfold enter_callout_list5. apply tri_bind with (A (Out, b "div" :: X) a f m c x); [|apply tri_put; sc].
    apply tri_look. intros s _. cbv beta zeta; match goal with |- context [if ?c then _ else _] => destruct c end; [apply tri_panic|]. apply tri_ok. intros h ((_ & H) & l & E & S). split; [|exact H]. cbn [html set_html].
    now rewrite E, (cut_last l "</div>" 6 eq_refl (Nat.lt_0_succ 5)).
  Qed.
  Lemma se_callouts d : settles Keep (enter_callout_list5 D d).
  Proof. unfold enter_callout_list5. sek. Qed.
  Lemma mv_callouts' a X : mv Keep a (b "ol" :: b "div" :: X) exit_callout_list5 X.
  Proof. unfold exit_callout_list5. mk. Qed.
  Lemma ends_callouts X a f m c x : tri (A (Out, b "ol" :: b "div" :: X) a f m c x) exit_callout_list5 (fun h => ends_div X (html h)).
  Proof. intros h h' (H & _) E. injection E as <-. cbn [html set_html]. exists (html h ++ [Lit "</ol>"]). split; [now rewrite <- app_assoc|]. rewrite pscan_app, H. lit. Qed.

  (** ** Paragraphs *)
  Definition para5 (d : nat) (f : flags) (m : meta) (X : list bytes) : list bytes :=
    if doctype_eqb (m_doctype m) Inline then X
    else let Y := if n_title D d then b "section" :: X else X in if f_term f then Y else (if is_abstract D d then b "blockquote" else b "p") :: Y.
  Lemma tri_paragraph5 d X f m c x : tri (A (Out, X) [] f m c x) (enter_paragraph_block5 D d) (A (Out, para5 d f m X) [] f m c x).
  Proof.
    apply tri_look. intros s (_ & _ & _ & -> & -> & _). unfold para5. destruct (doctype_eqb _ _); [apply tri_nothing|]. cbv zeta.
    apply tri_bind with (A (Out, if n_title D d then b "section" :: X else X) [] f m c x).
    - destruct (n_title D d); [|apply tri_nothing]. eapply tri_bind; [apply tri_put; instantiate (1 := (Out, b "section" :: X)); destruct (is_abstract D d); lit|]. apply go_title5.
    - apply tri_put. destruct (f_term f); [lit|]. destruct (is_abstract D d); [lit|sc].
  Qed.
  Lemma se_paragraph d : settles May (enter_paragraph_block5 D d).
  Proof. unfold enter_paragraph_block5. sem. Qed.
  Lemma clear_paragraph d : n_title D d = true -> tri (fun h => doctype_eqb (m_doctype (dm h)) Inline = false) (enter_paragraph_block5 D d) (fun h => alt h = []).
  Proof.
    intros T h h' I E. revert E. unfold enter_paragraph_block5, look. rewrite I. set (c := bind _ _). change (c h = Ret h' -> alt h' = []). intros E.
    assert (S : settles Clear c) by (unfold c; rewrite T; see). exact (S h h' E).
  Qed.
  Lemma tri_paragraph5' d X f m c x :
    tri (A (Out, para5 d f m X) [] f m c x) (exit_paragraph_block5 D d) (A (Out, X) [] (if doctype_eqb (m_doctype m) Inline then f else with_term false f) m c x).
  Proof.
    apply tri_look. intros s (_ & _ & _ & -> & -> & _). unfold para5. destruct (doctype_eqb _ _); [apply tri_nothing|].
    eapply tri_bind; [apply tri_put|apply tri_flags]. destruct (is_abstract D d), (f_term f), (n_title D d); lit.
  Qed.
  Lemma se_paragraph' d : settles Keep (exit_paragraph_block5 D d).
  Proof. unfold exit_paragraph_block5. sek. Qed.

  (** ** Admonitions *)
  Definition adm_stack (k d : nat) (X : list bytes) : list bytes := (if n_flag D d "compound" then [] else [b "p"]) ++ b (admonition_tag k) :: X.
  Lemma mv_admonition k d X : mv (tt5 D d) [] X (enter_admonition_block5 D k d) (adm_stack k d X).
  Proof.
    split; [|unfold tt5, enter_admonition_block5; destruct (n_title D d) eqn:NT; [see|sem]].
    intros f m c x. unfold enter_admonition_block5, adm_stack. remember (admonition_tag k) as n eqn:N. unfold open_element. rewrite finish_eq.
    assert (W : tag_ok (b n) (o_new D n d)) by (apply ok_id; [reflexivity|]; destruct k as [|[|[|[|k]]]]; subst n; starts).
    eapply tri_cons; [apply (tri_at_tag (b n)); now apply element_unclosed|]. eapply tri_cons; [apply tri_pop|].
    eapply tri_cons; [apply (tri_in_out (b n)); intros m' I; instantiate (1 := b n :: X)|].
    { destruct I as [->| ->]; destruct k as [|[|[|[|k]]]]; subst n; lit. }
    eapply tri_cons; [apply tri_look; intros s _; apply tri_put; instantiate (1 := (Out, b "h6" :: b n :: X)); sc|].
    eapply tri_cons; [apply go_title5|]. eapply tri_cons; [apply tri_put|].
    { instantiate (1 := (Out, (if n_flag D d "compound" then [] else [b "p"]) ++ b n :: X)). destruct (n_flag D d "compound"); lit. }
    eapply tri_cons; [apply go_title5|apply tri_nil].
  Qed.
  Lemma mv_admonition' k d a X : mv Keep a (adm_stack k d X) (exit_admonition_block5 D k d) X.
  Proof. unfold exit_admonition_block5, adm_stack, end_tag. destruct (n_flag D d "compound"); destruct k as [|[|[|[|k]]]]; cbn [admonition_tag]; mk. Qed.
End Calls5.
