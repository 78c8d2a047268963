(** Proofs about C54, third part: what each call of the backend does to the open elements. *)
From Verif Require Import Base AttrsModel EvalModel EscapeModel EvalSpec HtmlModel HtmlSpec HtmlScanProofs HtmlTagProofs.
Open Scope string_scope.
Open Scope nat_scope.
Open Scope list_scope.

(** the output leaves the scanner at [q], the other buffer leaves [sta] open, the footnotes are well nested *)
Definition closed (ps : pieces) : Prop := pscan (Out, []) ps = Some (Out, []).
Definition A (q : sstate) (sta : list bytes) (f : flags) (m : meta) (c : bool) (x : nat) (h : hst) : Prop :=
  pscan (Out, []) (html h) = Some q /\ pscan (Out, []) (alt h) = Some (Out, sta) /\ Forall (fun n => closed (snd n)) (notes h) /\ fl h = f /\ dm h = m /\ in_cell h = c /\ xref_depth h = x.
Definition tri (P : hst -> Prop) (c : cmd) (Q : hst -> Prop) : Prop := forall h h', P h -> c h = Ret h' -> Q h'.
(** [c] leads from [q] to [q'] and changes nothing else *)
Definition stays (q : sstate) (a : list bytes) (c : cmd) (q' : sstate) : Prop := forall f m cl x, tri (A q a f m cl x) c (A q' a f m cl x).
Definition go (a X : list bytes) (c : cmd) (Y : list bytes) : Prop := stays (Out, X) a c (Out, Y).

Lemma tri_bind P Q R c d : tri P c Q -> tri Q d R -> tri P (bind c d) R.
Proof. intros F G h h' H E. unfold bind in E. destruct (c h) as [s|] eqn:C; [|discriminate E]. eauto. Qed.
Lemma tri_cons P Q R c l : tri P c Q -> tri Q (all l) R -> tri P (all (c :: l)) R.
Proof. apply tri_bind. Qed.
Lemma tri_nil P : tri P (all []) P.
Proof. intros h h' H E. now injection E as <-. Qed.
Lemma tri_nothing P : tri P nothing P.
Proof. intros h h' H E. now injection E as <-. Qed.
Lemma tri_panic P Q : tri P (fun _ => Panic) Q.
Proof. intros h h' H E. discriminate E. Qed.
Lemma tri_look (P Q : hst -> Prop) f : (forall s, P s -> tri P (f s) Q) -> tri P (look f) Q.
Proof. intros H h h' X E. exact (H h X h h' X E). Qed.
Lemma tri_ok (P Q : hst -> Prop) g : (forall s, P s -> Q (g s)) -> tri P (ok g) Q.
Proof. intros H h h' X E. injection E as <-. auto. Qed.
Lemma tri_put q q' a f m c x ps : pscan q ps = Some q' -> tri (A q a f m c x) (put ps) (A q' a f m c x).
Proof. intros E. apply tri_ok. intros s (H1 & H). split; [|exact H]. cbn [html set_html]. now rewrite pscan_app, H1. Qed.
Lemma tri_flags q a f m c x g : tri (A q a f m c x) (change_flags g) (A q a (g f) m c x).
Proof. apply tri_ok. intros s (H1 & H2 & H3 & <- & H). repeat split; try assumption; apply H. Qed.
Lemma tri_weak (P P' Q Q' : hst -> Prop) c : (forall h, P h -> P' h) -> (forall h, Q' h -> Q h) -> tri P' c Q' -> tri P c Q.
Proof. intros X Y H h h' Z E. eauto. Qed.

Lemma st_bind q a q1 q2 c d : stays q a c q1 -> stays q1 a d q2 -> stays q a (bind c d) q2.
Proof. intros F G f m cl x. eapply tri_bind; [apply F|apply G]. Qed.
Lemma st_cons q a q1 q2 c l : stays q a c q1 -> stays q1 a (all l) q2 -> stays q a (all (c :: l)) q2.
Proof. apply st_bind. Qed.
Lemma st_nil q a : stays q a (all []) q.
Proof. intros f m cl x. apply tri_nil. Qed.
Lemma st_nothing q a : stays q a nothing q.
Proof. intros f m cl x. apply tri_nothing. Qed.
Lemma st_panic q a q' : stays q a (fun _ => Panic) q'.
Proof. intros f m cl x. apply tri_panic. Qed.
Lemma st_look q a q' g : (forall s, stays q a (g s) q') -> stays q a (look g) q'.
Proof. intros H f m cl x. apply tri_look. intros s _. apply H. Qed.
Lemma st_put q a q' ps : pscan q ps = Some q' -> stays q a (put ps) q'.
Proof. intros E f m cl x. now apply tri_put. Qed.
(** changes of what no theorem is about *)
Definition aside (g : hst -> hst) : Prop :=
  forall s, html (g s) = html s /\ alt (g s) = alt s /\ notes (g s) = notes s /\ fl (g s) = fl s /\ dm (g s) = dm s /\ in_cell (g s) = in_cell s /\ xref_depth (g s) = xref_depth s.
Lemma st_ok q a g : aside g -> stays q a (ok g) q.
Proof. intros H f m cl x. apply tri_ok. intros s. unfold A. destruct (H s) as (-> & -> & -> & -> & -> & -> & ->). auto. Qed.
Ltac aside := let s := fresh in intros s; repeat match goal with |- context [if ?c then _ else _] => destruct c end; repeat split.

Create HintDb scan.
(** scan pieces *)
Ltac sc :=
  lazymatch goal with
  | H : closed ?ps |- pscan (Out, _) ?ps = _ => exact (anywhere ps _ H)
  | |- pscan _ (_ ++ _) = _ => eapply pscan_seq; [sc|sc]
  | |- pscan _ [] = _ => reflexivity
  | |- pscan _ (opt_pieces _ _) = _ => apply scan_opt; let s := fresh in intros s; cbv beta; sc
  | |- pscan _ (if_pieces ?c _) = _ => first [apply scan_if; solve [sc] | destruct c; cbn [if_pieces]; sc]
  | |- pscan _ (flat_map _ _) = _ => apply scan_flat; let s := fresh in intros s; cbv beta; sc
  | |- pscan _ (open_element _ _ _ _) = _ => apply scan_element; starts
  | |- pscan _ (if ?c then _ else _) = _ => destruct c; sc
  | |- pscan _ (match ?c with _ => _ end) = _ => destruct c; sc
  | |- pscan _ ((if ?c then _ else _) :: _) = _ => destruct c; sc
  | |- pscan _ ((match ?c with _ => _ end) :: _) = _ => destruct c; sc
  | |- pscan _ (named_attr _ _ _) = _ => unfold named_attr; sc
  | |- pscan _ (named_or_pos_attr _ _ _ _) = _ => unfold named_or_pos_attr; sc
  | |- pscan _ (link_constraint_attrs _ _) = _ => unfold link_constraint_attrs; sc
  | |- pscan _ (division_start _ _) = _ => unfold division_start; sc
  | |- _ => first [solve [eauto with scan]|lit]
  end.
Ltac go0 :=
  lazymatch goal with
  | |- stays _ _ (all []) _ => apply st_nil
  | |- stays _ _ (all (_ :: _)) _ => eapply st_cons; [go0|go0]
  | |- stays _ _ (bind _ _) _ => eapply st_bind; [go0|go0]
  | |- stays _ _ nothing _ => apply st_nothing
  | |- stays _ _ (fun _ => Panic) _ => apply st_panic
  | |- stays _ _ (put _) _ => apply st_put; cbv zeta; sc
  | |- stays _ _ (look _) _ => apply st_look; let s := fresh "s" in intros s; cbv beta zeta; go0
  | |- stays _ _ (ok _) _ => apply st_ok; aside
  | |- stays _ _ (if ?c then _ else _) _ => destruct c; go0
  | |- stays _ _ (match ?c with _ => _ end) _ => destruct c; go0
  | |- stays _ _ _ _ => eauto
  end.

(** ** Titles *)
Lemma go_title_of D title d a X : closed title -> go a X (render_block_title D title d) X.
Proof. intros C. unfold go, render_block_title. destruct (is_table D d); go0. Qed.
Lemma tri_discard q f m c x : tri (A q [] f m c x) discard_alt_buffer (A q [] f m c x).
Proof. apply tri_ok. intros s (H1 & H2 & H3 & H). split; [exact H1|]. split; [reflexivity|]. split; [exact H3|exact H]. Qed.
Lemma go_title D d X : go [] X (render_buffered_block_title D d) X.
Proof.
  unfold go, render_buffered_block_title. destruct (n_title D d); [|apply st_nothing]. intros f m cl x. apply tri_look. intros s S.
  eapply tri_bind; [apply tri_discard|]. apply go_title_of. apply S.
Qed.
Ltac go1 :=
  lazymatch goal with
  | |- stays _ _ (all []) _ => apply st_nil
  | |- stays _ _ (all (_ :: _)) _ => eapply st_cons; [go1|go1]
  | |- stays _ _ (bind _ _) _ => eapply st_bind; [go1|go1]
  | |- stays _ _ nothing _ => apply st_nothing
  | |- stays _ _ (fun _ => Panic) _ => apply st_panic
  | |- stays _ _ (put _) _ => apply st_put; cbv zeta; sc
  | |- stays _ _ (look _) _ => apply st_look; let s := fresh "s" in intros s; cbv beta zeta; go1
  | |- stays _ _ (ok _) _ => apply st_ok; aside
  | |- stays _ _ (if ?c then _ else _) _ => destruct c; go1
  | |- stays _ _ (match ?c with _ => _ end) _ => destruct c; go1
  | |- stays _ _ (render_buffered_block_title _ _) _ => eapply go_title
  | |- stays _ _ _ _ => eauto
  end.

(** ** Pieces *)
Lemma scan_icon_path n X m : pscan (Val n, X) (icon_path m) = Some (Val n, X).
Proof.
  unfold icon_path. cbv zeta. generalize (m_str m "iconsdir"), (m_str m "imagesdir"). intros o1 o2.
  destruct o1 as [s|]; [destruct (s =? "")%string|]; destruct o2 as [s2|]; try destruct (s2 =? "")%string; lit.
Qed.
Lemma scan_icon_ext n X m : pscan (Val n, X) (icon_ext m) = Some (Val n, X).
Proof.
  unfold icon_ext. cbv zeta. generalize (m_str m "icontype"), (m_str m "icons"). intros o1 o2.
  destruct o1 as [s|]; [destruct (s =? "")%string|]; destruct o2 as [s2|]; try destruct (s2 =? "")%string; try destruct ((s2 =? "font") || (s2 =? "image"))%string; lit.
Qed.
Lemma scan_textlabel D n X k d m : pscan (Val n, X) (textlabel D RawVal k d m) = Some (Val n, X).
Proof.
  unfold textlabel. cbv zeta. destruct (n_named D d "caption"); [lit|]. destruct (get_is_false m _); [lit|]. destruct (m_str m _); [lit|]. destruct k as [|[|[|[|k]]]]; lit.
Qed.
Lemma scan_textlabel_out D X k d m : pscan (Out, X) (textlabel D Raw k d m) = Some (Out, X).
Proof.
  unfold textlabel. cbv zeta. destruct (n_named D d "caption"); [lit|]. destruct (get_is_false m _); [lit|]. destruct (m_str m _); [lit|]. destruct k as [|[|[|[|k]]]]; lit.
Qed.
Lemma scan_adm n X k : pscan (Val n, X) [Lit (admonition_name k)] = Some (Val n, X).
Proof. destruct k as [|[|[|[|k]]]]; lit. Qed.
#[export] Hint Resolve scan_icon_path scan_icon_ext scan_textlabel scan_textlabel_out : scan.
Lemma scan_image_link D href d X : (exists s, href = RawVal s \/ href = EscVal s) -> pscan (Out, X) (image_link D href d) = Some (Out, b "a" :: X).
Proof.
  intros H. unfold image_link. cbv zeta. apply (ok_finish (b "a")). apply ok_link. cbn [o_append o_styles o_put o_buf o_class o_open_classes no_attrs].
  intros Y. exists (Tag (b "a")). split; [|now right]. cbn [o_buf]. destruct H as (s & [->| ->]); lit.
Qed.
Lemma scan_inner_image D d blk X : pscan (Out, X) (inner_image D d blk) = Some (Out, X).
Proof. unfold inner_image. sc. Qed.
#[export] Hint Resolve scan_inner_image : scan.
Lemma scan_render_image D d blk m X : pscan (Out, X) (render_image D d blk m) = Some (Out, X).
Proof. unfold render_image. destruct (kind_of D d); [|apply scan_inner_image|sc]. destruct (_ && _); [|apply scan_inner_image]. unfold interactive_svg. sc. Qed.
#[export] Hint Resolve scan_render_image : scan.
Lemma scan_media_src D d m n X : pscan (Val n, X) (media_src D d m) = Some (Tag n, X).
Proof. unfold media_src. eapply pscan_seq; [destruct (n_flag D d "uri"); sc|]. eapply pscan_seq; [lit|]. destruct (n_named D d "start"), (n_named D d "end"); lit. Qed.
#[export] Hint Resolve scan_media_src : scan.
Lemma scan_video D d m X : pscan (Out, X) (video_element D d m) = Some (Out, X).
Proof.
  assert (V : forall w, pscan (Out, X) (video_service D w d) = Some (Out, X)).
  { intros w. unfold video_service. eapply pscan_seq; [lit|].
    destruct (attrs_app (named_or_pos_attr D "width" 1 d) (named_or_pos_attr D "height" 2 d)) with (n := b "iframe") (m := Name (b "iframe")) (X := X) as (m' & H & E); [apply attrs_pos; lit2..|now left|].
    rewrite app_assoc. eapply pscan_seq; [exact E|]. destruct H as [->| ->]; sc. }
  assert (N : pscan (Out, X) (native_video D d m) = Some (Out, X)) by (unfold native_video; sc).
  unfold video_element. destruct (n_pos D d 0) as [p|]; [|exact N]. destruct (_ || _); [apply V|]. destruct (p =? "wistia")%string; [apply V|exact N].
Qed.
#[export] Hint Resolve scan_video : scan.
Lemma scan_authors l : forall i X, pscan (Out, X) (author_details i l) = Some (Out, X).
Proof. induction l as [|a l IH]; intros i X; [lit|]. cbn [author_details]. eapply pscan_seq; [|apply IH]. unfold author_detail, author_number. sc. Qed.
#[export] Hint Resolve scan_authors : scan.
Lemma scan_notes l : Forall (fun n => closed (snd n)) l -> forall i X, pscan (Out, X) (footnote_list i l) = Some (Out, X).
Proof. induction 1 as [|[o t] l H L IH]; intros i X; [lit|]. cbn [footnote_list]. cbn [snd] in H. sc. Qed.

Section Calls.
  Context (D : details) (debug : bool).
  Ltac g := intros; unfold go; cbn [if_pieces negb andb orb Nat.eqb]; go1.

  (** ** Blocks *)
  Lemma go_sidebar d X : go [] X (enter_sidebar_block D d) (b "div" :: b "div" :: X).
  Proof. unfold enter_sidebar_block. g. Qed.
  Lemma go_sidebar' a X : go a (b "div" :: b "div" :: X) exit_sidebar_block X.
  Proof. unfold exit_sidebar_block. g. Qed.
  Definition code_if (v : bool) (X : list bytes) : list bytes := if v then b "code" :: X else X.
  Lemma tri_listing d X f m c x : f_source f = false ->
    tri (A (Out, X) [] f m c x) (enter_listing_block D d) (fun h => exists v, A (Out, code_if v (b "pre" :: b "div" :: b "div" :: X)) [] (with_source v f) m c x h).
  Proof.
    intros F. unfold enter_listing_block. eapply tri_cons; [apply tri_put; sc|]. eapply tri_cons; [apply go_title|]. eapply tri_cons; [apply tri_put; sc|]. eapply tri_cons; [|eapply tri_cons; [|apply tri_nil]].
    - apply tri_look. intros s S. instantiate (1 := fun h => exists v, A (Out, code_if v (b "pre" :: b "div" :: b "div" :: X)) [] (with_source v f) m c x h).
      destruct (_ || _).
      + eapply tri_bind; [apply tri_put; eapply pscan_seq; [lit|]; apply attrs_end; [apply attrs_opt; intros; apply attrs_to; lit2|now left]|].
        intros h h' H E. exists true. exact (tri_flags _ _ _ _ _ _ _ _ _ H E).
      + intros h h' H E. exists false. assert (W : with_source false f = f) by (destruct f; cbn in *; now subst). rewrite W.
        refine (tri_put _ _ _ _ _ _ _ _ _ h h' H E). lit.
    - intros h h' (v & H) E. exists v. refine (st_ok _ _ _ _ _ _ _ _ h h' H E). aside.
  Qed.
  Lemma tri_listing' v X f m c x :
    tri (A (Out, code_if v (b "pre" :: b "div" :: b "div" :: X)) [] (with_source v f) m c x) exit_listing_block (A (Out, X) [] (with_source false f) m c x).
  Proof.
    unfold exit_listing_block. apply tri_cons with (A (Out, b "pre" :: b "div" :: b "div" :: X) [] (with_source false f) m c x).
    - apply tri_look. intros s (_ & _ & _ & -> & _). cbn [f_source with_source]. destruct v; cbn [code_if].
      + eapply tri_bind; [apply tri_flags|]. apply tri_put. lit.
      + apply tri_nothing.
    - eapply tri_cons; [apply tri_put; lit|]. eapply tri_cons; [apply st_ok; aside|apply tri_nil].
  Qed.
  Lemma go_literal d X : go [] X (enter_literal_block D d) (b "pre" :: b "div" :: b "div" :: X).
  Proof. unfold enter_literal_block, preserve_newlines. g. Qed.
  Lemma go_literal' a X : go a (b "pre" :: b "div" :: b "div" :: X) exit_literal_block X.
  Proof. unfold exit_literal_block, default_newlines. g. Qed.
  Definition quoted (d : nat) : bytes := if is_verse D d then b "pre" else b "blockquote".
  Lemma go_quote d X : go [] X (enter_quote_block D d) (b "blockquote" :: b "div" :: X).
  Proof. unfold enter_quote_block. g. Qed.
  Lemma go_verse d X : go [] X (enter_verse_block D d) (b "pre" :: b "div" :: X).
  Proof. unfold enter_verse_block. g. Qed.
  Lemma go_quote' d a X : go a (quoted d :: b "div" :: X) (exit_quote_block D d 0) X.
  Proof. unfold exit_quote_block, quoted. destruct (is_verse D d); cbn [andb negb Nat.eqb]; g. Qed.
  Lemma go_quote_attributed' d a X : go a (b "div" :: X) (exit_quote_block D d 1) X.
  Proof. unfold exit_quote_block. destruct (is_verse D d); cbn [andb negb Nat.eqb]; g. Qed.
  Lemma go_attribution d a X : go a (quoted d :: X) (enter_quote_attribution D d) (b "div" :: X).
  Proof. unfold enter_quote_attribution, quoted. destruct (is_verse D d); g. Qed.
  Lemma go_attribution0' a X : go a (b "div" :: X) (exit_quote_attribution 0) X.
  Proof. unfold exit_quote_attribution. g. Qed.
  Lemma go_attribution1' a X : go a X (exit_quote_attribution 1) X.
  Proof. unfold exit_quote_attribution. g. Qed.
  Lemma go_cite1 a X : go a X (enter_quote_cite 1) (b "cite" :: X).
  Proof. unfold enter_quote_cite. g. Qed.
  Lemma go_cite1' a X : go a (b "cite" :: b "div" :: X) (exit_quote_cite 1) X.
  Proof. unfold exit_quote_cite. g. Qed.
  Lemma go_cite0 a X : go a (b "blockquote" :: X) (enter_quote_cite 0) (b "div" :: X).
  Proof. unfold enter_quote_cite. g. Qed.
  Lemma go_cite0' a X : go a (b "div" :: X) (exit_quote_cite 0) X.
  Proof. unfold exit_quote_cite. g. Qed.
  Lemma go_quoted_paragraph' a X : go a (b "div" :: X) exit_quoted_paragraph X.
  Proof. unfold exit_quoted_paragraph. g. Qed.
  Definition example_stack (d : nat) (X : list bytes) : list bytes := b "div" :: (if n_option D d "collapsible" then b "details" else b "div") :: X.
  Lemma pop_lit l s : pop_byte (l ++ [Lit s]) = l ++ [Lit (substring 0 (String.length s - 1) s)].
  Proof. unfold pop_byte. rewrite rev_app_distr. cbn [rev app]. now rewrite rev_involutive. Qed.
  Lemma go_example d X : go [] X (enter_example_block D d) (example_stack d X).
  Proof.
    unfold go, enter_example_block, example_stack. destruct (n_option D d "collapsible"); [|go1].
    apply st_bind with (Out, b "details" :: X); [|go1]. intros f m c x.
    pose (Q := fun h => exists l m', html h = l ++ [Lit ">"] /\ pscan (Out, []) l = Some (m', X) /\ intag (b "details") m' /\ A (Out, b "details" :: X) [] f m c x h).
    apply tri_cons with Q.
    { intros h h' H E. pose proof (tri_put (Out, X) (Out, b "details" :: X) [] f m c x (open_element D "details" [] d) ltac:(sc) h h' H E) as H'.
      injection E as E. destruct (ok_unclosed (b "details") (o_classes [] (o_new D "details" d)) ltac:(apply ok_classes; apply ok_id; [reflexivity|starts]) X) as (m' & S & I).
      exists (html h ++ unclosed (o_classes [] (o_new D "details" d))), m'. split; [rewrite <- E; cbn [html set_html]; unfold open_element; now rewrite finish_eq, app_assoc|].
      split; [|split; [exact I|exact H']]. rewrite pscan_app. destruct H as (-> & _). exact S. }
    apply tri_cons with (A (Out, b "details" :: X) [] f m c x).
    { destruct (n_option D d "open").
      - apply tri_bind with (fun h => exists m', intag (b "details") m' /\ A (m', X) [] f m c x h).
        + apply tri_ok. intros s (l & m' & E & S & I & H). exists m'. split; [exact I|]. destruct H as (_ & H). split; [|exact H]. cbn [html set_html].
          rewrite E, pop_lit. cbn [substring String.length Nat.sub]. rewrite pscan_app, S. reflexivity.
        + intros h h' (m' & I & H) E. refine (tri_put _ _ _ _ _ _ _ _ _ h h' H E). destruct I as [->| ->]; lit.
      - intros h h' (l & m' & _ & _ & _ & H) E. injection E as <-. exact H. }
    eapply tri_cons; [apply tri_put; lit|]. apply tri_cons with (A (Out, b "summary" :: b "details" :: X) [] f m c x).
    { destruct (n_title D d); [|apply tri_put; lit]. apply tri_look. intros s S. eapply tri_bind; [apply tri_discard|]. apply tri_put. apply anywhere, S. }
    eapply tri_cons; [apply tri_put; lit|apply tri_nil].
  Qed.
  Lemma go_example' d a X : go a (example_stack d X) (exit_example_block D d) X.
  Proof. unfold exit_example_block, example_stack. destruct (n_option D d "collapsible"); g. Qed.
  Definition open_stack (d : nat) (X : list bytes) : list bytes := (if is_abstract D d then b "blockquote" else b "div") :: b "div" :: X.
  Lemma go_open d X : go [] X (enter_open_block D d) (open_stack d X).
  Proof. unfold enter_open_block, open_stack. destruct (is_abstract D d); g. Qed.
  Lemma go_open' d a X : go a (open_stack d X) (exit_open_block D d) X.
  Proof. unfold exit_open_block, open_stack. destruct (is_abstract D d); g. Qed.
  Lemma go_discrete e d a X : go a X (enter_discrete_heading D e d) (hn (section_level D e + 1) :: X).
  Proof.
    unfold go, enter_discrete_heading. apply st_put. rewrite <- opens_hn.
    apply pscan_seq with (Name (hn (section_level D e + 1)), X); [reflexivity|]. rewrite app_assoc, app_assoc.
    set (n := hn (section_level D e + 1)).
    apply pscan_seq with (Val n, X); [|reflexivity]. apply pscan_seq with (Val n, X); [|apply scan_flat; lit].
    destruct (n_opt D e "id"); reflexivity.
  Qed.
  Lemma go_discrete' e a X : go a (hn (section_level D e + 1) :: X) (exit_discrete_heading D e) X.
  Proof. apply st_put. apply scan_h_end. Qed.
  (** what is open in a paragraph *)
  Definition para (d : nat) (f : flags) (m : meta) (X : list bytes) : list bytes :=
    if doctype_eqb (m_doctype m) Inline then X else (if is_abstract D d then b "blockquote" else b "p") :: (if f_term f then X else b "div" :: X).
  Lemma tri_paragraph d X f m c x : tri (A (Out, X) [] f m c x) (enter_paragraph_block D d) (A (Out, para d f m X) [] f m c x).
  Proof.
    apply tri_look. intros s (_ & _ & _ & -> & -> & _). unfold para. destruct (doctype_eqb _ _); [apply tri_nothing|].
    apply tri_bind with (A (Out, if f_term f then X else b "div" :: X) [] f m c x).
    - destruct (f_term f); [apply tri_nothing|]. eapply tri_bind; [apply tri_put; sc|apply go_title].
    - apply tri_put. destruct (is_abstract D d); lit.
  Qed.
  Lemma tri_paragraph' d X f m c x :
    tri (A (Out, para d f m X) [] f m c x) (exit_paragraph_block D d) (A (Out, X) [] (if doctype_eqb (m_doctype m) Inline then f else with_term false f) m c x).
  Proof.
    apply tri_look. intros s (_ & _ & _ & -> & -> & _). unfold para. destruct (doctype_eqb _ _); [apply tri_nothing|].
    eapply tri_bind; [apply tri_put|apply tri_flags]. destruct (is_abstract D d), (f_term f); lit.
  Qed.
  Lemma go_admonition k d X : go [] X (enter_admonition_block D k d) (b "td" :: b "tr" :: b "table" :: b "div" :: X).
  Proof.
    unfold go, enter_admonition_block. eapply st_cons; [|go1]. apply st_look. intros s. apply st_put.
    eapply pscan_seq; [sc|]. eapply pscan_seq; [lit|]. apply pscan_seq with (Out, b "td" :: b "tr" :: b "table" :: b "div" :: X); [|lit].
    assert (W : forall Y, pscan (Out, Y) (match icon_mode (dm s) with
                    | IconText => [Lit "<div class=""title"">"] ++ textlabel D Raw k d (dm s) ++ [Lit "</div>"]
                    | IconImage =>
                        [Lit "<img src="""] ++ (match n_opt D d "icon-uri" with Some u => [RawVal u] | None => icon_path (dm s) ++ [Lit (admonition_name k)] ++ icon_ext (dm s) end) ++
                        [Lit """ alt="""] ++ textlabel D RawVal k d (dm s) ++ [Lit """>"]
                    | IconFont => [Lit "<i class=""fa icon-"; Lit (admonition_name k); Lit """ title="""] ++ textlabel D RawVal k d (dm s) ++ [Lit """></i>"]
                    end) = Some (Out, Y)).
    { intros Y. destruct (icon_mode (dm s)); [sc| |].
      - eapply pscan_seq; [lit|]. apply pscan_seq with (Val (b "img"), Y); [|sc]. destruct (n_opt D d "icon-uri"); [lit|]. eapply pscan_seq; [apply scan_icon_path|]. eapply pscan_seq; [apply scan_adm|apply scan_icon_ext].
      - change [Lit "<i class=""fa icon-"; Lit (admonition_name k); Lit """ title="""] with ([Lit "<i class=""fa icon-"] ++ [Lit (admonition_name k)] ++ [Lit """ title="""]).
        eapply pscan_seq; [eapply pscan_seq; [lit|eapply pscan_seq; [apply scan_adm|lit]]|]. sc. }
    destruct (n_named D d "icon") as [icon|]; [|apply W]. destruct (_ || _); cbn [or_pieces]; [|apply W]. sc.
  Qed.
  Lemma go_admonition' a X : go a (b "td" :: b "tr" :: b "table" :: b "div" :: X) exit_admonition_block X.
  Proof. unfold exit_admonition_block. g. Qed.

  (** ** Lists *)
  Lemma scan_list_tag (l : list string) X : pscan (Out, X) (o_finish (o_classes l (no_attrs "ul"))) = Some (Out, b "ul" :: X).
  Proof. apply (ok_finish (b "ul")), ok_classes, (ok_none "ul"). starts. Qed.
  Lemma go_ul d X : go [] X (enter_unordered_list D d) (b "ul" :: b "div" :: X).
  Proof.
    apply st_look. intros s. cbv zeta. eapply st_cons; [apply st_ok; aside|]. eapply st_cons; [apply st_put; apply (ok_finish (b "div")), ok_classes; apply ok_id; [reflexivity|starts]|].
    eapply st_cons; [apply go_title|]. eapply st_cons; [apply st_put, scan_list_tag|apply st_nil].
  Qed.
  Lemma go_ul' a X : go a (b "ul" :: b "div" :: X) exit_unordered_list X.
  Proof. unfold exit_unordered_list. g. Qed.
  Lemma go_ol d n X : go [] X (enter_ordered_list D debug d n) (b "ol" :: b "div" :: X).
  Proof.
    apply st_look. intros s. destruct (debug && _); [apply st_panic|]. cbv zeta. eapply st_cons; [apply st_ok; aside|]. eapply st_cons; [apply st_put, scan_element; starts|].
    eapply st_cons; [apply go_title|]. eapply st_cons; [apply st_put|apply st_nil].
    generalize (match n_opt D d "number-style" with Some c => c | None => class_from_depth ((n + 256 - desc_depth s) mod 256) end).
    match goal with |- context [negb (?t =? "1")%string] => generalize t end. intros type class. sc.
  Qed.
  Lemma go_ol' a X : go a (b "ol" :: b "div" :: X) exit_ordered_list X.
  Proof. unfold exit_ordered_list. g. Qed.
  Definition rows (m : meta) : bytes := if text_icons m then b "ol" else b "table".
  Lemma tri_callouts d X f m c x : tri (A (Out, X) [] f m c x) (enter_callout_list D d) (A (Out, rows m :: b "div" :: X) [] f m c x).
  Proof.
    apply tri_look. intros s (_ & _ & _ & _ & -> & _). unfold rows. eapply tri_cons; [apply st_ok; aside|]. eapply tri_cons; [apply tri_put|apply tri_nil].
    eapply pscan_seq; [sc|]. destruct (text_icons m); lit.
  Qed.
  Lemma tri_callouts' X f m c x a : tri (A (Out, rows m :: b "div" :: X) a f m c x) exit_callout_list (A (Out, X) a f m c x).
  Proof. apply tri_look. intros s (_ & _ & _ & _ & -> & _). unfold rows. apply tri_put. destruct (text_icons m); lit. Qed.
  Definition plain (v : nat) (m : meta) : bool := negb (v =? callout_variant) || text_icons m.
  Lemma tri_item d v X f m c x a : tri (A (Out, X) a f m c x) (enter_item_principal D d v) (A (Out, (if plain v m then b "p" :: b "li" :: X else b "td" :: b "tr" :: X)) a f m c x).
  Proof.
    apply tri_look. intros s (_ & _ & _ & _ & E & _). unfold plain_item, plain. rewrite E. destruct (_ || _).
    - apply tri_put. unfold checklist_item. destruct (n_flag D d "checklist"), (hd false (interactive s)), (n_flag D d "checked"); lit.
    - cbv zeta. eapply tri_cons; [apply st_ok; aside|]. eapply tri_cons; [apply tri_put|apply tri_nil].
      eapply pscan_seq; [lit|]. apply pscan_seq with (Out, b "td" :: b "tr" :: X); [|lit]. destruct (icon_mode m); unfold callout_number_font, callout_number_img; sc.
  Qed.
  Lemma tri_item' v X f m c x a : tri (A (Out, (if plain v m then b "p" :: b "li" :: X else b "td" :: b "tr" :: X)) a f m c x) (exit_item_principal v) (A (Out, (if plain v m then b "li" else b "tr") :: X) a f m c x).
  Proof. apply tri_look. intros s (_ & _ & _ & _ & E & _). unfold plain_item, plain. rewrite E. apply tri_put. destruct (_ || _); lit. Qed.
  Lemma tri_item_end v X f m c x a : tri (A (Out, (if plain v m then b "li" else b "tr") :: X) a f m c x) (exit_item_blocks v) (A (Out, X) a f m c x).
  Proof. apply tri_look. intros s (_ & _ & _ & _ & E & _). unfold plain_item, plain. rewrite E. apply tri_put. destruct (_ || _); lit. Qed.
  Definition dlist_tag (st : dlist_style) : bytes := match st with DHorizontal => b "table" | DQanda => b "ol" | _ => b "dl" end.
  Definition dlist_flags (st : dlist_style) (f : flags) : flags := match st with DHorizontal => with_horizontal true f | DQanda => with_qanda true f | DGlossary => with_glossary true f | DPlain => f end.
  Lemma tri_dlist d X f m c x : tri (A (Out, X) [] f m c x) (enter_description_list D d) (A (Out, dlist_tag (style_of D d) :: b "div" :: X) [] (dlist_flags (style_of D d) f) m c x).
  Proof.
    unfold enter_description_list. eapply tri_bind; [apply st_ok; aside|]. destruct (style_of D d); cbn [dlist_tag dlist_flags].
    - eapply tri_cons; [apply tri_flags|]. eapply tri_cons; [apply tri_put; sc|]. eapply tri_cons; [apply go_title|]. eapply tri_cons; [apply tri_put; lit|].
      eapply tri_cons; [apply tri_put|apply tri_nil]. unfold col_width. sc.
    - eapply tri_cons; [apply tri_flags|]. eapply tri_cons; [apply tri_put; sc|]. eapply tri_cons; [apply go_title|]. eapply tri_cons; [apply tri_put; lit|apply tri_nil].
    - eapply tri_cons; [apply tri_flags|]. eapply tri_cons; [apply tri_put; sc|]. eapply tri_cons; [apply go_title|]. eapply tri_cons; [apply tri_put; lit|apply tri_nil].
    - eapply tri_cons; [apply tri_put; sc|]. eapply tri_cons; [apply go_title|]. eapply tri_cons; [apply tri_put; lit|apply tri_nil].
  Qed.
  (** the sort of list that the flags tell *)
  Definition told (f : flags) : dlist_style := if f_horizontal f then DHorizontal else if f_qanda f then DQanda else DPlain.
  Lemma tri_dlist' X f m c x a : tri (A (Out, dlist_tag (told f) :: b "div" :: X) a f m c x) exit_description_list
    (A (Out, X) a (with_glossary false (match told f with DHorizontal => with_horizontal false f | DQanda => with_qanda false f | _ => f end)) m c x).
  Proof.
    unfold exit_description_list. eapply tri_cons; [apply tri_flags|]. eapply tri_cons; [|eapply tri_cons; [apply st_ok; aside|apply tri_nil]].
    apply tri_look. intros s (_ & _ & _ & -> & _). unfold told. cbn [f_horizontal f_qanda with_glossary]. destruct (f_horizontal f); [|destruct (f_qanda f)]; cbn [dlist_tag].
    - eapply tri_bind; [apply tri_flags|]. apply tri_put. lit.
    - eapply tri_bind; [apply tri_flags|]. apply tri_put. lit.
    - apply tri_put. lit.
  Qed.
  (** what a term opens, and what its end leaves open *)
  Definition term_open (f : flags) (num : nat) (X : list bytes) : list bytes :=
    match told f with DHorizontal => b "td" :: b "tr" :: X | DQanda => b "em" :: b "p" :: if num =? 1 then b "li" :: X else X | _ => b "dt" :: X end.
  Definition term_left (f : flags) (num : nat) (X : list bytes) : list bytes := match told f with DHorizontal => b "tr" :: X | DQanda => if num =? 1 then b "li" :: X else X | _ => X end.
  Lemma tri_term num X f m c x a : (told f <> DPlain -> f_glossary f = false) -> tri (A (Out, X) a f m c x) (enter_term num) (A (Out, term_open f num X) a f m c x).
  Proof.
    intros G. apply tri_look. intros s (_ & _ & _ & -> & _). apply tri_put. unfold term_open, told in *.
    destruct (f_horizontal f); [rewrite G by discriminate; lit|]. destruct (f_qanda f); [rewrite G by discriminate; destruct (num =? 1); lit|]. destruct (f_glossary f); lit.
  Qed.
  Lemma tri_term' num X f m c x a : tri (A (Out, term_open f num X) a f m c x) exit_term (A (Out, term_left f num X) a f m c x).
  Proof.
    apply tri_look. intros s (_ & _ & _ & -> & _). apply tri_put. unfold term_open, term_left, told. destruct (f_horizontal f); [lit|]. destruct (f_qanda f); [destruct (num =? 1); lit|lit].
  Qed.
  Definition desc_open (f : flags) (X : list bytes) : list bytes := match told f with DHorizontal => b "td" :: b "tr" :: X | DQanda => b "li" :: X | _ => b "dd" :: X end.
  Lemma tri_description X f m c x a : tri (A (Out, term_left f 1 X) a f m c x) enter_description (A (Out, desc_open f X) a f m c x).
  Proof. apply tri_look. intros s (_ & _ & _ & -> & _). apply tri_put. unfold term_left, desc_open, told. destruct (f_horizontal f); [lit|]. destruct (f_qanda f); lit. Qed.
  Lemma tri_description' X f m c x a : tri (A (Out, desc_open f X) a f m c x) exit_description (A (Out, X) a f m c x).
  Proof. apply tri_look. intros s (_ & _ & _ & -> & _). apply tri_put. unfold desc_open, told. destruct (f_horizontal f); [lit|]. destruct (f_qanda f); lit. Qed.
End Calls.
