(** Proofs about C54, last part: from the calls to the document. *)
From Verif Require Import Base AttrsModel EvalModel EscapeModel EvalSpec EvalProofs HtmlModel HtmlSpec HtmlScanProofs HtmlTagProofs HtmlCallProofs HtmlPartProofs.
Open Scope string_scope.
Open Scope nat_scope.
Open Scope list_scope.

Section Acts.
  Context (D : details) (debug : bool).
  Notation calls := (calls D debug).
  Lemma calls_app l l' s : calls (l ++ l') s = bind (calls l) (calls l') s.
  Proof. revert s. induction l as [|e l IH]; intros s; [reflexivity|]. cbn. unfold bind in *. destruct (call D debug e s); [apply IH|reflexivity]. Qed.
  (** the calls made by [f] lead from [P] to [Q] *)
  Definition act (P : hst -> Prop) (f : action) (Q : hst -> Prop) : Prop := forall e e', f e = Done e' -> exists l, out e' = out e ++ l /\ tri P (calls l) Q.
  Lemma act_weak (P P' Q Q' : hst -> Prop) f : (forall h, P h -> P' h) -> (forall h, Q' h -> Q h) -> act P' f Q' -> act P f Q.
  Proof. intros X Y H e e' E. destruct (H e e' E) as (l & O & T). exists l. split; [exact O|]. eapply tri_weak; eauto. Qed.
  Lemma act_pre (P P' Q : hst -> Prop) f : (forall h, P h -> P' h) -> act P' f Q -> act P f Q.
  Proof. intros X. now apply act_weak. Qed.
  Lemma act_post (P Q Q' : hst -> Prop) f : (forall h, Q' h -> Q h) -> act P f Q' -> act P f Q.
  Proof. intros X. now apply act_weak. Qed.
  Lemma act_ex {V} (v0 : V) (P : V -> hst -> Prop) f Q : (forall v, act (P v) f Q) -> act (fun h => exists v, P v h) f Q.
  Proof.
    intros H e e' E. destruct (H v0 e e' E) as (l & O & _). exists l. split; [exact O|]. intros h h' (v & X) C. destruct (H v e e' E) as (l' & O' & T).
    rewrite O in O'. apply app_inv_head in O'. subst l'. exact (T h h' X C).
  Qed.
  Lemma act_prop (A0 : Prop) (P : hst -> Prop) f Q : (A0 -> act P f Q) -> act P f (fun _ => True) -> act (fun h => A0 /\ P h) f Q.
  Proof.
    intros H G e e' E. destruct (G e e' E) as (l & O & _). exists l. split; [exact O|]. intros h h' (v & X) C. destruct (H v e e' E) as (l' & O' & T).
    rewrite O in O'. apply app_inv_head in O'. subst l'. exact (T h h' X C).
  Qed.
  Lemma act_emit P ev Q : tri P (call D debug ev) Q -> act P (emit ev) Q.
  Proof.
    intros H e e' E. injection E as <-. exists [ev]. split; [reflexivity|]. intros h h' X C. apply (H h h' X). cbn in C. unfold bind in C. destruct (call D debug ev h); [exact C|discriminate C].
  Qed.
  Lemma act_skip P : act P skip P.
  Proof. intros e e' E. injection E as <-. exists []. split; [now rewrite app_nil_r|]. apply tri_nil. Qed.
  Lemma act_crash P Q : act P (fun _ => Crash) Q.
  Proof. intros e e' E. discriminate E. Qed.
  Lemma act_loops P Q : act P (fun _ => Loops) Q.
  Proof. intros e e' E. discriminate E. Qed.
  Lemma act_then P Q R f g : act P f Q -> act Q g R -> act P (then_ f g) R.
  Proof.
    intros F G e e' E. unfold then_ in E. destruct (f e) as [m| |] eqn:Ef; try discriminate E. destruct (F e m Ef) as (l & O & T). destruct (G m e' E) as (l' & O' & T').
    exists (l ++ l'). split; [now rewrite O', O, app_assoc|]. intros h h' X C. rewrite calls_app in C. exact (tri_bind P Q R _ _ T T' h h' X C).
  Qed.
  Lemma act_cons P Q R f l : act P f Q -> act Q (seq l) R -> act P (seq (f :: l)) R.
  Proof. apply act_then. Qed.
  Lemma act_nil P : act P (seq []) P.
  Proof. apply act_skip. Qed.
  Lemma act_each {V} P (f : V -> action) l : (forall v, In v l -> act P (f v) P) -> act P (each f l) P.
  Proof. induction l as [|v l IH]; intros H; [apply act_skip|]. apply act_then with P; [apply H; now left|]. apply IH. intros w W. apply H. now right. Qed.
  Lemma act_replace v k P Q : (forall r, act P (k r) Q) -> act P (replace_resolving v k) Q.
  Proof. intros H e e' E. exact (H (resolving e) _ e' E). Qed.
  Lemma act_ask wants f g P Q : act P f Q -> act P g Q -> act P (ask wants f g) Q.
  Proof. intros F G e e' E. unfold ask in E. destruct (wants (out e)); eauto. Qed.
  Lemma act_one P Q f : act P f Q -> act P (seq [f]) Q.
  Proof. intros H. eapply act_cons; [exact H|apply act_nil]. Qed.
End Acts.

(** put the handler in the place of the call *)
Ltac ev :=
  lazymatch goal with
  | |- act _ _ _ (enter _ _) _ => apply act_emit
  | |- act _ _ _ (exit _ _) _ => apply act_emit
  | |- act _ _ _ (visit _ _ _) _ => apply act_emit
  | _ => idtac
  end;
  cbn [call];
  lazymatch goal with
  | |- tri _ (match ?h with _ => _ end) _ =>
      let v := eval lazy [handler enters exits visits app map span_name String.eqb Ascii.eqb Bool.eqb] in h in
      change h with v; cbv beta iota; unfold arg; cbn [nth]
  end.

Section Inline.
  Context (D : details) (debug : bool) (anchors : anchor_table) (wants : list event -> bool) (AT : anchors_tidy anchors).
  Notation act := (act D debug).
  Definition inline_ok (fuel : nat) (n : bool) (i : inline) : Prop :=
    tidy n i = true -> forall X a f m c x, (n = true -> a = []) -> act (A (Out, X) a f m c x) (eval_inline anchors wants fuel i) (A (Out, X) a f m c x).
  Lemma each_ok fuel n l : (forall i, In i l -> inline_ok fuel n i) -> forallb (tidy n) l = true ->
    forall X a f m c x, (n = true -> a = []) -> act (A (Out, X) a f m c x) (each (eval_inline anchors wants fuel) l) (A (Out, X) a f m c x).
  Proof. intros H T X a f m c x N. apply act_each. intros i I. apply H; auto. rewrite forallb_forall in T. now apply T. Qed.
  Lemma inline_go fuel : forall i n, inline_ok fuel n i.
  Proof.
    induction fuel as [fuel IHf] using (well_founded_induction Wf_nat.lt_wf).
    induction i as [i K] using inline_rect'.
    assert (EO : forall n l, every (fun i => forall n, inline_ok fuel n i) l -> forallb (tidy n) l = true -> forall X a f m c x, (n = true -> a = []) ->
      act (A (Out, X) a f m c x) (each (eval_inline anchors wants fuel) l) (A (Out, X) a f m c x)).
    { intros n l E. apply each_ok. intros i0 I. exact (proj1 (every_in _ l) E i0 I n). }
    intros n T X a f m c x N.
    destruct i as [k d l|l|t|name d|d l|d o|d o|target d o|d o|id|l|p s t|]; cbn [kids] in K; cbn [tidy] in T.
    - rewrite span_eq. eapply act_cons; [|eapply act_cons; [|eapply act_cons; [|apply act_nil]]].
      + destruct k; ev; apply (go_span D).
      + now apply EO with n.
      + destruct k; ev; match goal with |- context [exit_span ?k] => apply (go_span' k) end.
    - rewrite passthru_eq. eapply act_cons; [|eapply act_cons; [|eapply act_cons; [|apply act_nil]]]; [ev; apply tri_nothing|now apply EO with n|ev; apply tri_nothing].
    - replace (eval_inline anchors wants fuel (IText t)) with (visit "inline_text" 0 t) by (destruct fuel; reflexivity). ev. apply tri_put. lit.
    - replace (eval_inline anchors wants fuel (ILeaf name d)) with (visit name d "") by (destruct fuel; reflexivity). apply act_emit. now apply go_leaf.
    - rewrite quote_eq. eapply act_cons; [|eapply act_cons; [|eapply act_cons; [|apply act_nil]]]; [ev; apply go_quotation|now apply EO with n|ev; apply go_quotation'].
    - rewrite footnote_eq. apply andb_true_iff in T as [T1 T2]. rewrite (N T1). eapply act_cons; [ev; apply tri_footnote|]. eapply act_cons; [|eapply act_cons; [ev; apply tri_footnote'|apply act_nil]].
      destruct o as [l|]; cbn [each_opt]; [|apply act_skip]. apply EO with false; [exact K|exact T2|discriminate].
    - rewrite link_eq. intros e e'. generalize (flag (resolving e)). intros r. revert e e'.
      destruct o as [l|].
      + change (act (A (Out, X) a f m c x) (seq [enter "link_macro" [d; r; 1]; each (eval_inline anchors wants fuel) l; exit "link_macro" [d; r; 1]]) (A (Out, X) a f m c x)).
        eapply act_cons; [ev; apply tri_link|]. eapply act_cons; [now apply EO with n|]. eapply act_cons; [ev; apply tri_link'|apply act_nil].
      + change (act (A (Out, X) a f m c x) (seq [enter "link_macro" [d; r; 0]; exit "link_macro" [d; r; 0]]) (A (Out, X) a f m c x)).
        eapply act_cons; [ev; apply tri_link|]. eapply act_cons; [ev; apply tri_link'|apply act_nil].
    - rewrite xref_eq. eapply act_cons; [ev; apply tri_xref|]. eapply act_cons; [|eapply act_cons; [apply act_replace; intros; apply act_skip|eapply act_cons; [ev; apply tri_xref'|apply act_nil]]].
      apply act_replace. intros r. cbv zeta.
      assert (Miss : act (A (Out, xref_open x X) a f m c (S x)) (visit "missing_xref" 0 target) (A (Out, xref_open x X) a f m c (S x))) by (ev; apply tri_look; intros s _; apply tri_put; lit).
      destruct r; [exact Miss|]. destruct (text_of_xref anchors target o) as [l|] eqn:E; [|exact Miss].
      set (biblio := flag _). clearbody biblio.
      assert (Around : forall g, act (A (Out, xref_open x X) a f m c (S x)) g (A (Out, xref_open x X) a f m c (S x)) ->
        act (A (Out, xref_open x X) a f m c (S x)) (seq [enter "xref_text" [biblio]; g; exit "xref_text" [biblio]]) (A (Out, xref_open x X) a f m c (S x))).
      { intros g G. eapply act_cons; [ev; apply go_xref_text|]. eapply act_cons; [exact G|]. eapply act_cons; [ev; apply go_xref_text'|apply act_nil]. }
      assert (Own : o = Some l -> act (A (Out, xref_open x X) a f m c (S x)) (each (eval_inline anchors wants fuel) l) (A (Out, xref_open x X) a f m c (S x))).
      { intros ->. now apply EO with n. }
      unfold text_of_xref in E. destruct (lookup anchors (get_id target)) as [an|] eqn:L.
      + destruct (AT _ _ L) as [TR TT].
        assert (Anch : forall t, titles t -> t = l -> act (A (Out, xref_open x X) a f m c (S x)) (match fuel with 0 => fun _ => Loops | S f => seq [enter "xref_text" [biblio]; each (eval_inline anchors wants f) l; exit "xref_text" [biblio]] end) (A (Out, xref_open x X) a f m c (S x))).
        { intros t Tt <-. destruct fuel as [|fuel']; [apply act_loops|]. apply Around. apply (each_ok fuel' false); [|exact Tt|discriminate]. intros i0 _. apply IHf. lia. }
        destruct (reftext an) as [[|y r]|].
        * apply Around, Own. destruct o; [now injection E as ->|discriminate E].
        * injection E as <-. exact (Anch _ TR eq_refl).
        * destruct o as [o|]; cbn [some negb]; [apply Around, Own; now injection E as ->|]. destruct (a_title an) as [|z t]; [discriminate E|]. injection E as <-. exact (Anch _ TT eq_refl).
      + apply Around, Own. exact E.
    - rewrite mailto_eq. eapply act_cons; [ev; apply go_mailto|]. eapply act_cons; [|eapply act_cons; [ev; apply go_mailto'|apply act_nil]].
      destruct o as [l|]; cbn [each_opt]; [now apply EO with n|apply act_skip].
    - replace (eval_inline anchors wants fuel (IBiblio id)) with (visit "biblio_anchor" 0 id) by (destruct fuel; reflexivity). ev. apply tri_put. lit.
    - rewrite visible_eq. eapply act_cons; [ev; apply tri_nothing|]. eapply act_cons; [|apply act_nil]. apply act_ask; [now apply EO with n|apply act_skip].
    - rewrite concealed_eq. cbv zeta. destruct K as (Kp & Ks & Kt). apply andb_true_iff in T as [T Tt]. apply andb_true_iff in T as [Tp Ts].
      eapply act_cons; [ev; apply tri_nothing|]. eapply act_cons; [|eapply act_cons; [ev; apply tri_nothing|apply act_nil]]. apply act_ask; [|apply act_skip].
      eapply act_cons; [ev; apply tri_nothing|]. eapply act_cons; [now apply EO with n|]. eapply act_cons; [ev; apply tri_nothing|].
      eapply act_cons; [|eapply act_cons; [|apply act_nil]].
      + destruct s as [l|]; [|apply act_skip]. eapply act_cons; [ev; apply tri_nothing|]. eapply act_cons; [now apply EO with n|]. eapply act_cons; [ev; apply tri_nothing|apply act_nil].
      + destruct t as [l|]; [|apply act_skip]. eapply act_cons; [ev; apply tri_nothing|]. eapply act_cons; [now apply EO with n|]. eapply act_cons; [ev; apply tri_nothing|apply act_nil].
    - replace (eval_inline anchors wants fuel INothing) with skip by (destruct fuel; reflexivity). apply act_skip.
  Qed.
End Inline.

(** ** Blocks *)
(** what is known inside a block: the flags of the description list around, the type of document, whether it is written with its head, the sort of icons of the callout list around *)
Record env := Env { e_h : bool; e_q : bool; e_dt : doctype; e_em : bool; e_sa : bool; e_ti : bool }.
Definition okJ (p : place) (e : env) (f : flags) (m : meta) (c : bool) : Prop :=
  f_source f = false /\ f_horizontal f = e_h e /\ f_qanda f = e_q e /\ (p_dlist p <> DInGlossary -> f_glossary f = false) /\
  m_doctype m = e_dt e /\ m_embedded m = e_em e /\ (p_callouts p = true -> text_icons m = e_ti e) /\ alone m c = e_sa e /\ (p_cell p = false -> alone m false = e_sa e).
Definition J (p : place) (e : env) (X : list bytes) (h : hst) : Prop := exists f m c x, A (Out, X) [] f m c x h /\ okJ p e f m c.

Section Blocks.
  Context (D : details) (debug : bool) (anchors : anchor_table) (wants : list event -> bool) (AT : anchors_tidy anchors) (fuel : nat).
  Notation act := (act D debug).
  Lemma tri_J p e X c Y : go [] X c Y -> tri (J p e X) c (J p e Y).
  Proof. intros G h h' (f & m & cl & x & H & K) E. exists f, m, cl, x. split; [|exact K]. exact (G f m cl x h h' H E). Qed.
  Lemma act_J p e X f Q : (forall fl m c x, okJ p e fl m c -> act (A (Out, X) [] fl m c x) f Q) -> act (A (Out, X) [] no_flags empty_meta false 0) f (fun _ => True) -> act (J p e X) f Q.
  Proof.
    intros H G e0 e1 E. destruct (G e0 e1 E) as (l & O & _). exists l. split; [exact O|]. intros h h' (fl & m & c & x & H' & K) C. destruct (H fl m c x K e0 e1 E) as (l' & O' & T).
    rewrite O in O'. apply app_inv_head in O'. subst l'. exact (T h h' H' C).
  Qed.
  Lemma tri_true P c : tri P c (fun _ => True).
  Proof. intros h h' _ _. exact I. Qed.
  Lemma act_true (P : hst -> Prop) f Q P' : act P' f Q -> act P f (fun _ => True).
  Proof. intros H e0 e1 E. destruct (H e0 e1 E) as (l & O & _). exists l. split; [exact O|]. apply tri_true. Qed.
  Lemma act_J0 p e X f Q : (forall fl m c x, act (A (Out, X) [] fl m c x) f (A (Out, Q) [] fl m c x)) -> act (J p e X) f (J p e Q).
  Proof.
    intros H. apply act_J; [|eapply act_true; exact (H no_flags empty_meta false 0)]. intros fl m c x K. eapply act_post; [|apply H]. intros h A0. now exists fl, m, c, x.
  Qed.
  Lemma into p e X f m c x h : A (Out, X) [] f m c x h -> okJ p e f m c -> J p e X h.
  Proof. intros. now exists f, m, c, x. Qed.
  Lemma inlines_go n l X a f m c x : forallb (tidy n) l = true -> (n = true -> a = []) -> act (A (Out, X) a f m c x) (inlines anchors wants fuel l) (A (Out, X) a f m c x).
  Proof. intros T N. apply (each_ok D debug anchors wants fuel n); [|exact T|exact N]. intros i _. now apply inline_go. Qed.
  Lemma texts_go l X f m c x : texts l -> act (A (Out, X) [] f m c x) (inlines anchors wants fuel l) (A (Out, X) [] f m c x).
  Proof. intros T. apply (inlines_go true); auto. Qed.
  Lemma texts_J p e l X : texts l -> act (J p e X) (inlines anchors wants fuel l) (J p e X).
  Proof. intros T. apply act_J0. intros. now apply texts_go. Qed.
  Lemma texts_opt_J p e o X : texts_opt o -> act (J p e X) (inlines_opt anchors wants fuel o) (J p e X).
  Proof. destruct o as [l|]; [apply texts_J|intros _; apply act_skip]. Qed.
  Ltac evJ := ev; apply tri_J.
  Ltac st t := eapply act_cons; [t|].
  Ltac step_J t := eapply act_cons; [evJ; t|].
  Ltac stop := apply act_nil.

  (** ** Tables of contents *)
  Lemma okJ_flags p e f f' m c : f_source f' = f_source f -> f_horizontal f' = f_horizontal f -> f_qanda f' = f_qanda f -> f_glossary f' = f_glossary f -> okJ p e f m c -> okJ p e f' m c.
  Proof. unfold okJ. intros -> -> -> ->. auto. Qed.
  Lemma tri_J_flags p e X c Y (g : flags -> flags) : (forall f, f_source (g f) = f_source f /\ f_horizontal (g f) = f_horizontal f /\ f_qanda (g f) = f_qanda f /\ f_glossary (g f) = f_glossary f) ->
    (forall f m cl x, tri (A (Out, X) [] f m cl x) c (A (Out, Y) [] (g f) m cl x)) -> tri (J p e X) c (J p e Y).
  Proof.
    intros G H h h' (f & m & cl & x & H' & K) E. exists (g f), m, cl, x. split; [exact (H f m cl x h h' H' E)|]. destruct (G f) as (G1 & G2 & G3 & G4). now apply okJ_flags with f.
  Qed.
  Lemma toc_node_J p e : forall n X, toc_tidy n -> act (J p e X) (eval_toc_node anchors wants fuel n) (J p e X).
  Proof.
    induction n as [d level title children IH] using toc_rect'. intros X [T C]. cbn [eval_toc_node].
    eapply act_cons. { ev. eapply (tri_J_flags p e X _ _ (fun f => if is_appendix D d then with_appendix true f else f)); [intros f; destruct (is_appendix D d); repeat split|intros; apply tri_toc_node]. }
    eapply act_cons; [ev; apply tri_nothing|]. eapply act_cons; [now apply texts_J|]. step_J ltac:(apply go_toc_content').
    eapply act_cons; [|eapply act_cons; [|apply act_nil]].
    2: { ev. eapply (tri_J_flags p e _ _ _ (fun f => if is_appendix D d then with_appendix false f else f)); [intros f; destruct (is_appendix D d); repeat split|intros; apply tri_toc_node']. }
    destruct children as [|[d' lv t' ch'] l] eqn:Ec; [apply act_skip|]. rewrite <- Ec in *. clear Ec. step_J ltac:(apply go_toc_level). eapply act_cons; [|step_J ltac:(apply go_toc_level'); stop].
    apply act_each. intros n I. apply (proj1 (every_in _ children) IH n I). apply (proj1 (every_in _ children) C n I).
  Qed.
  Lemma toc_level_J p e l X : every toc_tidy l -> act (J p e X) (eval_toc_level anchors wants fuel l) (J p e X).
  Proof.
    intros T. destruct l as [|[d level title children] l0] eqn:E; [apply act_skip|]. cbn [eval_toc_level]. rewrite <- E in *. clear E.
    step_J ltac:(apply go_toc_level). eapply act_cons; [|step_J ltac:(apply go_toc_level'); stop]. apply act_each. intros n I. apply toc_node_J. exact (proj1 (every_in _ l) T n I).
  Qed.
  Lemma toc_at_J p e t ps X : toc_label D t -> tocs_tidy t -> (match t with Some t => position t = PPreamble -> existsb (position_eqb PPreamble) ps = true -> exists Y, X = b "div" :: Y | None => True end) ->
    act (J p e X) (eval_toc_at anchors wants fuel t ps) (J p e X).
  Proof.
    intros L T P. destruct t as [t|]; [|apply act_skip]. cbn [toc_label tocs_tidy] in *. unfold eval_toc_at. destruct (existsb (position_eqb (position t)) ps) eqn:Ex; [|apply act_skip].
    destruct (negb _); [|apply act_skip]. cbn [andb].
    assert (W : exists Y, X = if position_eqb (n_position D (toc_d t)) PPreamble then b "div" :: Y else Y).
    { rewrite L. destruct (position t) eqn:Ep; cbn [position_eqb]; [exists X; reflexivity| |destruct (P eq_refl Ex) as (Y & ->); exists Y; reflexivity|exists X; reflexivity..]; exists X; reflexivity. }
    destruct W as (Y & ->).
    eapply act_cons. { ev. eapply (tri_J_flags p e _ _ _ (with_toc true)); [intros f; repeat split|intros; apply tri_toc]. }
    eapply act_cons; [now apply toc_level_J|]. eapply act_cons; [|apply act_nil].
    ev. eapply (tri_J_flags p e _ _ _ (with_toc false)); [intros f; repeat split|intros; apply tri_toc'].
  Qed.

  (** ** The parts that hold blocks *)
  Definition toc_fine (t : option toc) : Prop := toc_label D t /\ tocs_tidy t.
  Definition scene (t : option toc) (p : place) (e : env) : Prop := toc_fine t /\ (p_dlist p <> DInRows -> e_h e = false /\ e_q e = false).
  Notation evb := (eval_block anchors wants fuel).
  Definition block_go (k : block) : Prop := forall t p e X, scene t p e -> fine D p k -> act (J p e X) (evb t k) (J p e X).
  Lemma blocks_J t p e X l : scene t p e -> every block_go l -> every (fine D p) l -> act (J p e X) (each (evb t) l) (J p e X).
  Proof. intros T B F. apply act_each. intros k I. apply (proj1 (every_in _ l) B k I); [exact T|exact (proj1 (every_in _ l) F k I)]. Qed.
  Lemma section_go t p e X s : scene t p e -> section_fits block_go s -> section_fine (fine D) p s -> act (J p e X) (eval_section anchors wants fuel evb t s) (J p e X).
  Proof.
    intros T B [F1 F2]. unfold eval_section.
    eapply act_cons. { ev. eapply (tri_J_flags p e X _ _ (fun f => if is_appendix D (s_d s) then with_appendix true f else if is_bibliography D (s_d s) then with_bibliography true f else f));
      [intros f; destruct (is_appendix D (s_d s)), (is_bibliography D (s_d s)); repeat split|intros; apply tri_section]. }
    assert (H : forall f m c x, act (A (Out, b "div" :: X) [] f m c x) (seq [enter "section_heading" [s_d s]; inlines anchors wants fuel (s_heading s); exit "section_heading" [s_d s]]) (A (Out, section_inner D (s_d s) X) [] f m c x)).
    { intros. eapply act_cons; [ev; apply tri_heading|]. eapply act_cons; [now apply texts_go|]. eapply act_cons; [ev; apply tri_heading'|stop]. }
    assert (H' : act (J p e (b "div" :: X)) (seq [enter "section_heading" [s_d s]; inlines anchors wants fuel (s_heading s); exit "section_heading" [s_d s]]) (J p e (section_inner D (s_d s) X))) by (apply act_J0; exact H).
    assert (R : act (J p e (section_inner D (s_d s) X)) (seq [each (evb t) (s_blocks s); exit "section" [s_d s]]) (J p e X)).
    { eapply act_cons; [now apply blocks_J|]. eapply act_cons; [|stop]. ev.
      eapply (tri_J_flags p e _ _ _ (fun f => if is_appendix D (s_d s) then with_appendix false f else if is_bibliography D (s_d s) then with_bibliography false f else f));
      [intros f; destruct (is_appendix D (s_d s)), (is_bibliography D (s_d s)); repeat split|intros; apply tri_section']. }
    intros e0 e1 E. refine (act_then D debug _ _ _ _ _ H' R e0 e1 _). revert E. cbn [seq]. unfold then_, enter, exit, emit, skip.
    repeat match goal with |- context [match ?f ?x with Done _ => _ | Crash => _ | Loops => _ end] => destruct (f x) end; auto.
  Qed.
  Lemma act_app P Q R l l' : act P (seq l) Q -> act Q (seq l') R -> act P (seq (l ++ l')) R.
  Proof.
    intros H G e0 e1 E. apply (act_then D debug P Q R _ _ H G e0 e1). revert E. clear. revert e0. induction l as [|f l IH]; intros e0; cbn [seq app]; [auto|]. unfold then_. destruct (f e0); auto.
    intros E. apply IH in E. exact E.
  Qed.
  Lemma part_go t p e X x : scene t p e -> part_fits block_go x -> part_fine (fine D) p x -> act (J p e X) (eval_book_part anchors wants fuel evb t x) (J p e X).
  Proof.
    intros T [B1 B2] (F1 & F2 & F3 & F4). unfold eval_book_part. eapply act_cons; [ev; apply tri_nothing|]. step_J ltac:(apply go_part_title). eapply act_cons; [now apply texts_J|]. step_J ltac:(apply go_part_title').
    eapply act_cons; [|eapply act_cons; [|eapply act_cons; [ev; apply tri_nothing|stop]]].
    - destruct (p_intro x) as [l|]; [|apply act_skip]. step_J ltac:(apply go_part_intro). eapply act_cons; [now apply texts_opt_J|]. step_J ltac:(apply go_part_content). eapply act_cons; [now apply blocks_J|].
      step_J ltac:(apply go_end_div). step_J ltac:(apply go_end_div). stop.
    - apply act_each. intros s I. apply section_go; [exact T|exact (proj1 (every_in _ _) B2 s I)|exact (proj1 (every_in _ _) F4 s I)].
  Qed.
  (** what an item is, by the icons of the list *)
  Definition fixed (p : place) (e : env) (v : nat) (w : bool) : Prop := v <> callout_variant /\ w = true \/ v = callout_variant /\ p_callouts p = true /\ w = e_ti e.
  Lemma fixed_plain p e f m c v w : okJ p e f m c -> fixed p e v w -> plain v m = w.
  Proof.
    intros K [[H ->]|(-> & H & ->)]; unfold plain.
    - apply Nat.eqb_neq in H. now rewrite H.
    - cbn. destruct K as (_ & _ & _ & _ & _ & _ & K & _). auto.
  Qed.
  Lemma item_go t p e v w X i : scene t p e -> fixed p e v w -> every block_go (i_blocks i) -> item_fine (fine D) p i -> act (J p e X) (eval_item anchors wants fuel evb t v i) (J p e X).
  Proof.
    intros T V B [F1 F2]. unfold eval_item.
    assert (K : forall c Y Z, (forall f m cl x, plain v m = w -> tri (A (Out, Y) [] f m cl x) c (A (Out, Z) [] f m cl x)) -> tri (J p e Y) c (J p e Z)).
    { intros c Y Z H h h' (f & m & cl & x & H' & K) E. exists f, m, cl, x. split; [|exact K]. exact (H f m cl x (fixed_plain p e f m cl v w K V) h h' H' E). }
    apply act_cons with (J p e (if w then b "p" :: b "li" :: X else b "td" :: b "tr" :: X)). { ev. apply K. intros f m cl x <-. apply tri_item. }
    eapply act_cons; [now apply texts_J|].
    apply act_cons with (J p e ((if w then b "li" else b "tr") :: X)). { ev. apply K. intros f m cl x <-. apply tri_item'. }
    eapply act_cons; [ev; apply tri_nothing|]. eapply act_cons; [now apply blocks_J|]. eapply act_cons; [|stop].
    ev. apply K. intros f m cl x <-. apply tri_item_end.
  Qed.
  (** ** Description lists *)
  Definition flags_of (e : env) : flags := Flags false false (e_h e) (e_q e) false false false false.
  Lemma told_same p e f m c : okJ p e f m c -> told f = told (flags_of e).
  Proof. intros (_ & H & Q & _). unfold told. now rewrite H, Q. Qed.
  Lemma description_go t p e st X i : scene t p e -> told (flags_of e) = (match st with DHorizontal => DHorizontal | DQanda => DQanda | _ => DPlain end) ->
    (told (flags_of e) <> DPlain -> p_dlist p <> DInGlossary) -> item_all block_go i -> description_fine (fine D) st p i ->
    act (J p e X) (eval_description anchors wants fuel evb t i) (J p e X).
  Proof.
    intros T E G [B1 B2] (S & F1 & F2 & F3). unfold eval_description, item_shape in *. destruct (i_meta i) as [extra description|]; [|apply act_crash]. cbv zeta.
    set (z := flags_of e) in *.
    assert (K : forall c Y Z, (forall f m cl x, told f = told z -> (told f <> DPlain -> f_glossary f = false) -> tri (A (Out, Y) [] f m cl x) c (A (Out, Z) [] f m cl x)) -> tri (J p e Y) c (J p e Z)).
    { intros c Y Z H h h' (f & m & cl & x & H' & K) Eq. exists f, m, cl, x. split; [|exact K]. pose proof (told_same p e f m cl K) as W. refine (H f m cl x W _ h h' H' Eq).
      intros N. rewrite W in N. apply K, G, N. }
    assert (Kt : forall n Y, tri (J p e Y) (enter_term n) (J p e (term_open z n Y))).
    { intros n Y. apply K. intros f m cl x W N. unfold term_open. rewrite <- W. now apply tri_term. }
    assert (Kt' : forall n Y, tri (J p e (term_open z n Y)) exit_term (J p e (term_left z n Y))).
    { intros n Y. apply K. intros f m cl x W N. unfold term_open, term_left. rewrite <- W. apply tri_term'. }
    eapply act_cons; [ev; apply Kt|]. eapply act_cons; [now apply texts_J|]. eapply act_cons; [ev; apply Kt'|].
    destruct F3 as [F3 F4]. eapply act_cons; [|eapply act_cons; [|stop]].
    - (* the other terms *)
      assert (M : forall l n Y, every texts l -> 2 <= n -> (l = [] \/ told z <> DHorizontal) -> act (J p e Y) (eval_terms anchors wants fuel (i_d i) (1 + length extra) n l) (J p e Y)).
      { induction l as [|l1 l IH]; intros n Y L N H; [apply act_skip|]. destruct L as [L1 L2]. destruct H as [H|H]; [discriminate H|]. cbn [eval_terms].
        eapply act_cons; [ev; apply Kt|]. eapply act_cons; [now apply texts_J|]. eapply act_cons; [ev; apply Kt'|]. apply act_one.
        replace (term_left z n Y) with Y; [apply IH; auto|]. unfold term_left. destruct (told z); auto; try congruence. replace (n =? 1) with false; [reflexivity|]. symmetry. apply Nat.eqb_neq. lia. }
      apply M; [exact F3|lia|]. rewrite E. destruct st; try (right; discriminate). left. apply S.
    - set (described := some description || _) in *. destruct described eqn:Ed; unfold described in Ed.
      + eapply act_cons. { ev. instantiate (1 := J p e (desc_open z X)). apply K. intros f m cl x W N. unfold term_left, desc_open. rewrite <- W. apply tri_description. }
        eapply act_cons; [|eapply act_cons; [|eapply act_cons; [|stop]]].
        * destruct description as [k|]; [|apply act_skip]. eapply act_cons; [|eapply act_cons; [|eapply act_cons; [|stop]]].
          -- ev. eapply (tri_J_flags p e (desc_open z X) _ (desc_open z X) (with_term true)); [intros f; repeat split|intros; apply tri_flags].
          -- apply B2; [exact T|exact F4].
          -- ev. eapply (tri_J_flags p e (desc_open z X) _ (desc_open z X) (with_term false)); [intros f; repeat split|intros; apply tri_flags].
        * apply act_each. intros k I. eapply act_cons; [ev; apply tri_nothing|]. eapply act_cons; [apply (proj1 (every_in _ _) B1 k I); [exact T|exact (proj1 (every_in _ _) F2 k I)]|]. eapply act_cons; [ev; apply tri_nothing|stop].
        * ev. apply K. intros f m cl x W N. unfold desc_open. rewrite <- W. apply tri_description'.
      + replace (term_left z 1 X) with X; [apply act_skip|]. unfold term_left. rewrite E. destruct st; [destruct S as [_ S]; discriminate S|discriminate S|reflexivity..].
  Qed.
  Definition env_dlist (st : dlist_style) (e : env) : env := match st with DHorizontal => Env true (e_q e) (e_dt e) (e_em e) (e_sa e) (e_ti e) | DQanda => Env (e_h e) true (e_dt e) (e_em e) (e_sa e) (e_ti e) | _ => e end.
  Lemma dlist_go t p e X d n items : scene t p e -> dlist_allowed (p_dlist p) (style_of D d) -> every (item_all block_go) items ->
    every (description_fine (fine D) (style_of D d) (Place (dlist_inside (p_dlist p) (style_of D d)) (p_callouts p) (p_cell p))) items ->
    act (J p e X) (seq [enter "description_list" [d; n]; each (eval_description anchors wants fuel evb t) items; exit "description_list" [d; n]]) (J p e X).
  Proof.
    intros T L B F. set (st := style_of D d) in *. set (p' := Place (dlist_inside (p_dlist p) st) (p_callouts p) (p_cell p)) in *. set (e' := env_dlist st e).
    assert (NR : p_dlist p <> DInRows) by (intros N; rewrite N in L; destruct st; contradiction).
    pose proof (proj2 T NR) as [Z1 Z2].
    assert (T' : scene t p' e').
    { split; [apply T|]. unfold p', e'. cbn [p_dlist]. destruct st; cbn [dlist_inside env_dlist]; intros N; try (exfalso; now apply N); now split. }
    apply act_cons with (J p' e' (dlist_tag st :: b "div" :: X)).
    { ev. intros h h' (f & m & c & x & H & K) E. pose proof (tri_dlist D d X f m c x h h' H E) as H'. destruct K as (K1 & K2 & K3 & K4 & K5).
      exists (dlist_flags st f), m, c, x. split; [exact H'|]. unfold p', e'. split; [destruct st; exact K1|]. split; [destruct st; cbn; congruence|]. split; [destruct st; cbn; congruence|].
      split; [|destruct st; exact K5]. cbn [p_dlist]. destruct st; cbn [dlist_inside dlist_flags f_glossary with_horizontal with_qanda with_glossary]; intros N; try (now apply K4); try (now elim N).
      - apply K4. destruct (p_dlist p); [discriminate|destruct L|discriminate].
      - apply K4. destruct (p_dlist p); [discriminate|destruct L|discriminate]. }
    eapply act_cons.
    { apply act_each. intros i I. apply description_go with st; [exact T'| | |exact (proj1 (every_in _ _) B i I)|exact (proj1 (every_in _ _) F i I)].
      - unfold e', told. destruct st; cbn; rewrite ?Z1, ?Z2; reflexivity.
      - unfold e', p', told. destruct st; cbn; rewrite ?Z1, ?Z2; intros N; try discriminate; now elim N. }
    eapply act_cons; [|stop]. ev. intros h h' (f & m & c & x & H & K) E. pose proof (told_same p' e' f m c K) as W.
    assert (W' : dlist_tag st = dlist_tag (told f)). { rewrite W. unfold e', told. destruct st; cbn; rewrite ?Z1, ?Z2; reflexivity. }
    rewrite W' in H. pose proof (tri_dlist' X f m c x [] h h' H E) as H'. eexists _, m, c, x. split; [exact H'|].
    destruct K as (K1 & K2 & K3 & K4 & K5). rewrite W. unfold e', p', told in *. destruct st; cbn [env_dlist flags_of f_horizontal f_qanda e_h e_q e_dt e_em e_ti e_sa p_callouts p_cell p_dlist dlist_inside] in *; rewrite ?Z1, ?Z2 in *;
      (split; [exact K1|]); cbn [with_glossary with_horizontal with_qanda f_horizontal f_qanda f_glossary]; (split; [congruence|]); (split; [congruence|]); (split; [auto|exact K5]).
  Qed.
  (** ** Quotes *)
  Lemma quote_go p e X d attr cite : texts_opt attr -> texts_opt cite -> (is_verse D d = true -> some cite = true -> some attr = true) ->
    act (J p e (quoted D d :: b "div" :: X)) (eval_quote_attr anchors wants fuel d attr cite) (J p e (if some attr || some cite then b "div" :: X else quoted D d :: b "div" :: X)).
  Proof.
    intros TA TC V. unfold eval_quote_attr. destruct attr as [a|], cite as [ci|]; cbn [some orb flag Nat.b2n].
    - apply act_cons with (J p e (b "div" :: b "div" :: X)); [|apply act_one].
      + step_J ltac:(apply go_attribution). eapply act_cons; [now apply texts_J|]. step_J ltac:(apply go_attribution1'). stop.
      + step_J ltac:(apply go_cite1). eapply act_cons; [now apply texts_J|]. step_J ltac:(apply go_cite1'). stop.
    - apply act_cons with (J p e (b "div" :: X)); [|apply act_one, act_skip].
      step_J ltac:(apply go_attribution). eapply act_cons; [now apply texts_J|]. step_J ltac:(apply go_attribution0'). stop.
    - eapply act_cons; [apply act_skip|]. apply act_one. assert (Q : quoted D d = b "blockquote") by (unfold quoted; destruct (is_verse D d); [discriminate (V eq_refl eq_refl)|reflexivity]). rewrite Q.
      step_J ltac:(apply go_cite0). eapply act_cons; [now apply texts_J|]. step_J ltac:(apply go_cite0'). stop.
    - eapply act_cons; [apply act_skip|apply act_one, act_skip].
  Qed.
  Lemma quote_end p e X d (w : bool) : tri (J p e (if w then b "div" :: X else quoted D d :: b "div" :: X)) (exit_quote_block D d (flag w)) (J p e X).
  Proof. destruct w; cbn [flag Nat.b2n]; apply tri_J; [apply go_quote_attributed'|apply go_quote']. Qed.

  (** ** Callout lists *)
  Lemma callouts_go' t p e X d n v items : scene t p e -> p_callouts p = true -> every (item_all block_go) items -> every (item_fine (fine D) p) items ->
    act (J p e X) (seq [enter "callout_list" [d; n]; each (eval_item anchors wants fuel evb t v) items; exit "callout_list" [d; n]]) (J p e X).
  Proof.
    intros T C B F. set (r := if e_ti e then b "ol" else b "table").
    assert (K : forall c Y Z, (forall f m cl x, text_icons m = e_ti e -> tri (A (Out, Y) [] f m cl x) c (A (Out, Z) [] f m cl x)) -> tri (J p e Y) c (J p e Z)).
    { intros c Y Z H h h' (f & m & cl & x & H' & K) E. exists f, m, cl, x. split; [|exact K]. refine (H f m cl x _ h h' H' E). destruct K as (_ & _ & _ & _ & _ & _ & K & _). auto. }
    apply act_cons with (J p e (r :: b "div" :: X)). { ev. apply K. intros f m cl x W. unfold r. rewrite <- W. apply tri_callouts. }
    eapply act_cons; [|eapply act_cons; [|stop]].
    - apply act_each. intros i I. apply item_go with (if v =? callout_variant then e_ti e else true); [exact T| |apply (proj1 (every_in _ _) B i I)|exact (proj1 (every_in _ _) F i I)].
      destruct (v =? callout_variant) eqn:Ev; [right; apply Nat.eqb_eq in Ev; now split|left; apply Nat.eqb_neq in Ev; now split].
    - ev. apply K. intros f m cl x W. unfold r. rewrite <- W. apply tri_callouts'.
  Qed.
  Lemma callouts_go t p e X d n v items : scene t p e -> every (item_all block_go) items -> every (item_fine (fine D) (Place (p_dlist p) true (p_cell p))) items ->
    act (J p e X) (seq [enter "callout_list" [d; n]; each (eval_item anchors wants fuel evb t v) items; exit "callout_list" [d; n]]) (J p e X).
  Proof.
    intros T B F. destruct (p_callouts p) eqn:C.
    { apply callouts_go'; auto. destruct p as [pd pc pl]. cbn in *. now subst pc. }
    set (env_with := fun w => Env (e_h e) (e_q e) (e_dt e) (e_em e) (e_sa e) w).
    apply act_pre with (fun h => exists w, J (Place (p_dlist p) true (p_cell p)) (env_with w) X h).
    { intros h (f & m & c & x & H & K). exists (text_icons m), f, m, c, x. split; [exact H|]. destruct K as (K1 & K2 & K3 & K4 & K5 & K6 & K7 & K8). repeat (split; [assumption|]). split; [reflexivity|exact K8]. }
    apply (act_ex D debug true). intros w. eapply act_post; [|apply callouts_go'; [exact T|reflexivity|exact B|exact F]].
    intros h (f & m & c & x & H & K). exists f, m, c, x. split; [exact H|]. destruct K as (K1 & K2 & K3 & K4 & K5 & K6 & K7 & K8). repeat (split; [assumption|]). split; [congruence|exact K8].
  Qed.

  (** ** Documents *)
  Lemma content_go t p e X has c : scene t p e -> content_fits block_go c -> content_fine (fine D) p c -> (match t with Some t => position t = PPreamble -> has = 1 | None => True end) ->
    act (J p e X) (eval_doc_content anchors wants fuel evb t has c) (J p e X).
  Proof.
    intros T B F P. unfold eval_doc_content.
    assert (KC : tri (J p e X) enter_content (J p e (if e_em e then X else b "div" :: X))).
    { intros h h' (f & m & cl & x & H & K) E. exists f, m, cl, x. split; [|exact K]. pose proof (tri_content [] X f m cl x h h' H E) as H'. unfold content_open in H'. destruct K as (_ & _ & _ & _ & _ & <- & _). exact H'. }
    assert (KC' : tri (J p e (if e_em e then X else b "div" :: X)) exit_content (J p e X)).
    { intros h h' (f & m & cl & x & H & K) E. exists f, m, cl, x. split; [|exact K]. refine (tri_content' [] X f m cl x h h' _ E). unfold content_open. destruct K as (_ & _ & _ & _ & _ & -> & _). exact H. }
    eapply act_cons; [ev; apply KC|]. eapply act_cons; [|eapply act_cons; [ev; apply KC'|stop]]. clear KC KC'. set (Y := if e_em e then X else _). clearbody Y.
    assert (S : forall Z l, every (section_fits block_go) l -> every (section_fine (fine D) p) l -> act (J p e Z) (each (eval_section anchors wants fuel evb t) l) (J p e Z)).
    { intros Z l Bl Fl. apply act_each. intros s I. apply section_go; [exact T|exact (proj1 (every_in _ _) Bl s I)|exact (proj1 (every_in _ _) Fl s I)]. }
    assert (PT : act (J p e (preamble_open has Y)) (eval_toc_at anchors wants fuel t [PPreamble]) (J p e (preamble_open has Y))).
    { destruct T as [[T1 T2] _]. apply toc_at_J; [exact T1|exact T2|]. destruct t as [t|]; [|exact I]. intros Q _. rewrite (P Q). unfold preamble_open. cbn. now exists (b "div" :: Y). }
    destruct c as [l|pre secs|pre op parts cl]; cbn [content_fits content_fine] in *.
    - now apply blocks_J.
    - destruct B as [B1 B2], F as [F1 F2]. eapply act_cons; [|apply act_one; now apply S]. destruct pre as [l|]; [|apply act_skip].
      step_J ltac:(apply go_preamble). eapply act_cons; [now apply blocks_J|]. eapply act_cons; [exact PT|]. step_J ltac:(apply go_preamble'). stop.
    - destruct B as (B1 & B2 & B3 & B4), F as (F1 & F2 & F3 & F4). eapply act_cons; [|eapply act_cons; [|apply act_one; now apply S]].
      + destruct pre as [l|]; [|now apply S]. step_J ltac:(apply go_preamble). eapply act_cons; [now apply blocks_J|]. eapply act_cons; [now apply S|]. eapply act_cons; [exact PT|]. step_J ltac:(apply go_preamble'). stop.
      + apply act_each. intros x I. apply part_go; [exact T|exact (proj1 (every_in _ _) B3 x I)|exact (proj1 (every_in _ _) F3 x I)].
  Qed.
  Lemma document_go p doc c : p_dlist p = DFree -> p_callouts p = false -> (p_cell p = false -> alone (doc_meta D (d_d doc)) false = alone (doc_meta D (d_d doc)) c) ->
    document_fits block_go doc -> document_fine D (fine D) p doc ->
    act (A (Out, []) [] no_flags empty_meta c 0) (visit_document anchors wants fuel evb doc) (fun h => closed (html h) /\ Forall (fun n => closed (snd n)) (notes h)).
  Proof.
    intros PD PC PL B (F1 & F2 & F3 & F4 & F5 & F6 & F7 & F8). unfold visit_document. set (m := doc_meta D (d_d doc)) in *.
    set (e := Env false false (m_doctype m) (m_embedded m) (alone m c) false).
    assert (T : scene (d_toc doc) p e) by (split; [now split|now split]).
    assert (K0 : okJ p e no_flags m c). { repeat (split; [reflexivity|]). split; [congruence|]. split; [reflexivity|exact PL]. }
    assert (I0 : forall o X f m c x, texts_opt o -> act (A (Out, X) [] f m c x) (eval_docinfo anchors wants fuel doc o) (A (Out, X) [] f m c x)).
    { intros o X f m0 c0 x To. unfold eval_docinfo. destruct (embedded doc); [apply act_skip|]. destruct o as [l|]; [now apply texts_go|apply act_skip]. }
    eapply act_cons; [ev; apply tri_document|]. fold m. eapply act_cons; [now apply I0|]. eapply act_cons; [ev; apply tri_body|]. eapply act_cons; [now apply I0|]. eapply act_cons; [ev; apply tri_header|].
    apply act_cons with (A (Out, header_open m (body_open m c [])) [] no_flags m c 0).
    { destruct (d_title doc) as [l|]; [|apply act_skip]. eapply act_cons; [ev; apply tri_doc_title|]. eapply act_cons; [apply (inlines_go false); [exact F4|discriminate]|]. eapply act_cons; [ev; apply tri_doc_title'|stop]. }
    eapply act_cons; [ev; apply tri_header'|]. set (BO := if e_sa e then b "body" :: b "html" :: [] else []).
    assert (EB : forall m' c', alone m' c' = e_sa e -> body_open m' c' [] = BO) by (intros m' c' W; unfold body_open, BO; now rewrite W).
    apply act_cons with (J p e BO).
    { eapply act_pre; [|apply toc_at_J; [exact F1|exact F2|]].
      - intros h H. rewrite (EB m c eq_refl) in H. exact (into p e _ _ _ _ _ h H K0).
      - destruct (d_toc doc) as [t|]; [|exact I]. intros _ N. discriminate N. }
    eapply act_cons.
    { apply content_go; [exact T|exact B|exact F8|]. destruct (d_toc doc) as [t|]; [|exact I]. intros Q. now rewrite (F3 Q). }
    apply act_pre with (fun h => exists v : flags * meta * bool * nat, A (Out, body_open (snd (fst (fst v))) (snd (fst v)) []) [] (fst (fst (fst v))) (snd (fst (fst v))) (snd (fst v)) (snd v) h).
    { intros h (f & m' & c' & x & H & K). exists (f, m', c', x). cbn [fst snd]. rewrite EB; [exact H|]. apply K. }
    apply (act_ex D debug (no_flags, empty_meta, false, 0)). intros [[[f m'] c'] x]. cbn [fst snd].
    eapply act_cons; [ev; apply tri_footer|]. eapply act_cons; [ev; apply tri_footer'|]. eapply act_cons; [now apply I0|]. eapply act_cons; [ev; apply tri_body'|].
    eapply act_cons; [|stop]. ev. intros h h' H E. injection E as <-. destruct H as (H1 & _ & H3 & _). now split.
  Qed.

  (** ** Cells and tables *)
  Lemma call_cell l s : call D debug (Cell_ l) s =
    match calls D debug l (set_cell true (set_notes (notes s) fresh)) with Ret s' => Ret (set_notes (notes s') (set_html (html s ++ html s') (set_cell false s))) | Panic => Panic end.
  Proof.
    cbn [call].
    match goal with |- match ?g l ?s0 with _ => _ end = _ => assert (E : forall l s, g l s = calls D debug l s) end.
    { clear. induction l as [|e l IH]; intros s; [reflexivity|]. cbn. unfold bind. destruct (call D debug e s); [apply IH|reflexivity]. }
    now rewrite E.
  Qed.
  Lemma cell_go t p e sect X c : scene t p e -> cell_fits block_go c -> cell_fine D (fine D) p sect c -> act (J p e X) (eval_cell anchors wants fuel evb t sect c) (J p e X).
  Proof.
    intros T B [L F]. unfold eval_cell. unfold cell_label in L. unfold cell_fits in B. destruct (c_content c) as [l|l|doc] eqn:Ec.
    - assert (CI : forall Y, cell_inner D (c_d c) Y = Y) by (intros Y; unfold cell_inner; destruct (n_cell D (c_d c)); first [contradiction L|reflexivity]).
      assert (NC : match n_cell D (c_d c) with CsAsciiDoc | CsLiteral => False | _ => True end) by (destruct (n_cell D (c_d c)); exact L || exact I).
      destruct (heads D (c_d c) sect) eqn:Hd.
      + set (Y := b "th" :: X). apply act_cons with (fun h => J p e Y h /\ trimmed h).
        { ev. intros h h' H E. split; [|exact (cell_trimmed D _ _ _ _ NC E)]. refine (tri_J p e X _ Y _ h h' H E). unfold Y. replace (b "th" :: X) with (cell_inner D (c_d c) (cell_tag D (c_d c) sect :: X)); [apply go_cell|]. rewrite CI. unfold cell_tag. now rewrite Hd. }
        eapply act_cons; [|eapply act_cons; [|stop]].
        * apply act_each. intros q I. eapply act_cons. { ev. eapply tri_weak; [|intros h W; exact W|apply (tri_J p e Y); apply go_cell_paragraph]. now intros h [H _]. }
          eapply act_cons; [apply texts_J; exact (proj1 (every_in _ _) F q I)|]. eapply act_cons; [|stop]. ev. intros h h' H E. split; [|exact (paragraph_trimmed _ _ _ _ _ E)].
          exact (tri_J p e _ _ Y (go_cell_paragraph' D _ _ _ _) h h' H E).
        * ev. intros h h' ((f & m & cl & x & H & K) & W) E. exists f, m, cl, x. split; [|exact K]. exact (tri_head_cell D _ _ X f m cl x [] Hd h h' (conj H W) E).
      + step_J ltac:(apply go_cell). eapply act_cons; [|eapply act_cons; [evJ; apply go_cell'; exact Hd|stop]].
        apply act_each. intros q I. step_J ltac:(apply go_cell_paragraph). eapply act_cons; [apply texts_J; exact (proj1 (every_in _ _) F q I)|]. step_J ltac:(apply go_cell_paragraph'). stop.
    - destruct F as [F1 F2]. assert (Hd : heads D (c_d c) sect = false). { unfold heads. apply Nat.eqb_neq in F1. rewrite F1. destruct (n_cell D (c_d c)); try contradiction L. reflexivity. }
      step_J ltac:(apply go_cell). eapply act_cons; [now apply texts_J|]. eapply act_cons; [evJ; apply go_cell'; exact Hd|stop].
    - destruct F as (F1 & F2 & F3). assert (Hd : heads D (c_d c) sect = false). { unfold heads. apply Nat.eqb_neq in F1. rewrite F1. destruct (n_cell D (c_d c)); try contradiction L. reflexivity. }
      step_J ltac:(apply go_cell). eapply act_cons; [|eapply act_cons; [evJ; apply go_cell'; exact Hd|stop]].
      intros e0 e1 E. destruct (visit_document anchors wants fuel evb doc (St [] false)) as [s'| |] eqn:Ev; try discriminate E. injection E as <-. exists [Cell_ (out s')]. split; [reflexivity|].
      set (q := Place DFree false _) in F3. pose proof (insert_keeps (n_meta D (d_d doc)) "outfilesuffix" (AStr ".html")) as [KD KE]. fold (doc_meta D (d_d doc)) in KD, KE.
      assert (G : act (A (Out, []) [] no_flags empty_meta true 0) (visit_document anchors wants fuel evb doc) (fun h => closed (html h) /\ Forall (fun n => closed (snd n)) (notes h))).
      { apply document_go with q; [reflexivity|reflexivity| |exact B|exact F3]. unfold q. cbn [p_cell]. intros N. unfold alone. rewrite KD, KE. destruct (doctype_eqb _ _), (m_embedded _); cbn in *; congruence. }
      destruct (G _ _ Ev) as (l & O & W). cbn in O. rewrite O. clear O G.
      intros h h' (f & m & cl & x & H & K) C. cbn [calls] in C. unfold bind in C. rewrite call_cell in C. destruct (calls D debug l _) as [s1|] eqn:C1; [|discriminate C]. injection C as <-.
      assert (S : closed (html s1) /\ Forall (fun n => closed (snd n)) (notes s1)).
      { refine (W _ _ _ C1). destruct H as (_ & _ & H & _). repeat (split; [first [exact H|reflexivity]|]); try exact H; reflexivity. }
      exists f, m, false, x. split.
      + destruct S as [S1 S2], H as (H1 & H2 & H3 & H4 & H5 & H6 & H7). split; [|repeat (split; [assumption || reflexivity|]); assumption || reflexivity]. cbn. rewrite pscan_app, H1. exact (pscan_deeper _ _ (Out, []) (Out, []) S1).
      + destruct K as (K1 & K2 & K3 & K4 & K5 & K6 & K7 & K8 & K9). repeat (split; [assumption|]). split; [auto|exact K9].
  Qed.
  Lemma row_go t p e sect X r : scene t p e -> row_fits block_go r -> row_fine D (fine D) p sect r -> act (J p e X) (eval_row anchors wants fuel evb t sect r) (J p e X).
  Proof.
    intros T B F. unfold eval_row. apply act_cons with (J p e (b "tr" :: X)); [evJ; apply st_put; lit|]. apply act_cons with (J p e (b "tr" :: X)); [|apply act_cons with (J p e X); [evJ; apply st_put; lit|stop]].
    apply act_each. intros c I. apply cell_go; [exact T|exact (proj1 (every_in _ _) B c I)|exact (proj1 (every_in _ _) F c I)].
  Qed.
  Lemma table_go t p e X d tb : scene t p e -> table_fits block_go tb -> table_fine D (fine D) p tb -> act (J p e X) (eval_table anchors wants fuel evb t d tb) (J p e X).
  Proof.
    intros T (B1 & B2 & B3) (F1 & F2 & F3). unfold eval_table. step_J ltac:(apply go_table).
    assert (O : forall k o, match o with Some r => row_fits block_go r | None => True end -> match o with Some r => row_fine D (fine D) p k r | None => True end ->
      act (J p e (b "table" :: X)) (match o with Some r => seq [enter "table_section" [k]; eval_row anchors wants fuel evb t k r; exit "table_section" [k]] | None => skip end) (J p e (b "table" :: X))).
    { intros k [r|] Br Fr; [|apply act_skip]. step_J ltac:(apply go_section_tag). eapply act_cons; [now apply row_go|]. step_J ltac:(apply go_section_tag'). stop. }
    eapply act_cons; [now apply O|]. eapply act_cons; [|eapply act_cons; [now apply O|]; step_J ltac:(apply go_table'); stop].
    destruct (body_rows tb) as [|r0 rows0] eqn:Er; [apply act_skip|]. rewrite <- Er in *. clear Er r0 rows0. step_J ltac:(apply go_section_tag). eapply act_cons; [|step_J ltac:(apply go_section_tag'); stop].
    apply act_each. intros r I. apply row_go; [exact T|exact (proj1 (every_in _ _) B2 r I)|exact (proj1 (every_in _ _) F2 r I)].
  Qed.

  (** ** Blocks *)
  Lemma go_simple_content d a X : go a X (enter_simple_block_content D d) X.
  Proof. apply st_ok. intros h. destruct (is_verse D d); [repeat split|]. destruct (n_option D d "hardbreaks"); repeat split. Qed.
  Lemma go_default_newlines a X : go a X default_newlines X.
  Proof. unfold go, default_newlines. go1. Qed.
  Lemma content_of p e X d l : texts l ->
    act (J p e X) (seq [enter "simple_block_content" [d]; inlines anchors wants fuel l; exit "simple_block_content" [d]]) (J p e X).
  Proof. intros T. step_J ltac:(apply go_simple_content). eapply act_cons; [now apply texts_J|]. step_J ltac:(apply go_default_newlines). stop. Qed.
  Lemma go_break d a X : go a X (put (open_element D "hr" [] d)) X.
  Proof. unfold go. go1. Qed.
  (** with something known that the state does not show *)
  Lemma act_params {V} (v0 : V) (R : V -> Prop) (P Q : V -> hst -> Prop) f : (forall v, act (P v) f (Q v)) -> act (fun h => exists v, P v h /\ R v) f (fun h => exists v, Q v h /\ R v).
  Proof.
    intros H e0 e1 E. destruct (H v0 e0 e1 E) as (l & O & _). exists l. split; [exact O|]. intros h h' (v & H' & K) C. exists v. split; [|exact K]. destruct (H v e0 e1 E) as (l' & O' & T).
    rewrite O in O'. apply app_inv_head in O'. subst l'. exact (T h h' H' C).
  Qed.
  Record params := Params { q_v : bool; q_f : flags; q_m : meta; q_c : bool; q_x : nat }.
  Definition params0 : params := Params false no_flags empty_meta false 0.
  Lemma content_params (S : params -> list bytes) (F : params -> flags) (R : params -> Prop) d l : texts l ->
    let P h := exists v, A (Out, S v) [] (F v) (q_m v) (q_c v) (q_x v) h /\ R v in
    act P (seq [enter "simple_block_content" [d]; inlines anchors wants fuel l; exit "simple_block_content" [d]]) P.
  Proof.
    intros T P. unfold P. apply (act_params params0 R (fun v => A (Out, S v) [] (F v) (q_m v) (q_c v) (q_x v)) (fun v => A (Out, S v) [] (F v) (q_m v) (q_c v) (q_x v))). intros v.
    eapply act_cons; [ev; apply go_simple_content|]. eapply act_cons; [now apply texts_go|]. eapply act_cons; [ev; apply go_default_newlines|stop].
  Qed.
  Lemma five P Q f1 f2 f3 f4 f5 R S : act P f1 R -> act R (seq [f2; f3; f4]) S -> act S f5 Q -> act P (seq [f1; f2; f3; f4; f5]) Q.
  Proof. intros H1 H2 H3. eapply act_cons; [exact H1|]. apply (act_app R S Q [f2; f3; f4] [f5]); [exact H2|]. eapply act_cons; [exact H3|stop]. Qed.
  Lemma all_blocks : forall k, block_go k.
  Proof.
    induction k as [d title attr cite cx body B] using block_rect'. intros t p e X T [[L1 L2] (F1 & F2 & F3 & F4 & F5)]. cbn [eval_block].
    eapply act_cons; [|apply act_one].
    { instantiate (1 := J p e X). destruct title as [l|]; [|apply act_skip]. apply act_J0. intros. eapply act_cons; [ev; apply tri_title|]. eapply act_cons; [apply (inlines_go false); [exact F1|discriminate]|].
      eapply act_cons; [ev; apply tri_title'|stop]. }
    assert (IV : is_verse D d = match cx with XVerse => true | _ => false end) by (unfold is_verse; now rewrite L1).
    destruct cx, body as [l|l|en|en|en l| |tb|sc|en|qu qa qc|v n items]; try apply act_crash; cbn [body_all] in B; try (now apply section_go); try (now apply table_go); try apply act_skip.
    all: lazymatch goal with
      | |- act _ (seq [enter ?n _; enter "compound_block_content" _; _; _; exit ?n _]) _ =>
          eapply act_cons; [evJ; lazymatch n with "sidebar_block" => apply go_sidebar | "open_block" => apply go_open | "example_block" => apply go_example | "admonition_block" => apply go_admonition end|];
          eapply act_cons; [ev; apply tri_nothing|]; eapply act_cons; [now apply blocks_J|]; eapply act_cons; [ev; apply tri_nothing|];
          eapply act_cons; [evJ; lazymatch n with "sidebar_block" => apply go_sidebar' | "open_block" => apply go_open' | "example_block" => apply go_example' | "admonition_block" => apply go_admonition' end|stop]
      | |- act _ (seq [enter ?n _; enter "simple_block_content" _; _; _; exit ?n _]) _ =>
          lazymatch n with
          | "paragraph_block" => idtac
          | "listing_block" => idtac
          | _ =>
          eapply act_cons; [lazymatch n with "sidebar_block" => evJ; apply go_sidebar | "literal_block" => evJ; apply go_literal | "example_block" => evJ; apply go_example | "passthrough_block" => ev; apply tri_nothing end|];
          eapply act_cons; [evJ; apply go_simple_content|]; eapply act_cons; [now apply texts_J|]; eapply act_cons; [evJ; apply go_default_newlines|];
          eapply act_cons; [lazymatch n with "sidebar_block" => evJ; apply go_sidebar' | "literal_block" => evJ; apply go_literal' | "example_block" => evJ; apply go_example' | "passthrough_block" => ev; apply tri_nothing end|stop]
          end
      | |- act _ (visit "thematic_break" _ _) _ => evJ; apply go_break
      | |- act _ (visit "page_break" _ _) _ => evJ; apply st_put; lit
      | |- act _ (visit "audio_macro" _ _) _ => evJ; apply go_audio
      | |- act _ (visit "video_macro" _ _) _ => evJ; apply go_video
      | |- act _ (eval_toc_at _ _ _ _ _) _ => apply toc_at_J; [apply T|apply T|destruct t as [t|]; [|exact I]; intros _ N; discriminate N]
      | |- _ => idtac
      end.
    - step_J ltac:(apply go_admonition). eapply act_cons; [now apply texts_J|]. step_J ltac:(apply go_admonition'). stop.
    - assert (Q : quoted D d = b "blockquote") by (unfold quoted; now rewrite IV). apply act_cons with (J p e (quoted D d :: b "div" :: X)); [rewrite Q; evJ; apply go_quote|]. eapply act_cons; [ev; apply tri_nothing|].
      eapply act_cons; [now apply blocks_J|]. eapply act_cons; [ev; apply tri_nothing|]. eapply act_cons; [apply quote_go; [exact F2|exact F3|rewrite IV; discriminate]|]. eapply act_cons; [|stop]. ev. apply quote_end.
    - assert (Q : quoted D d = b "blockquote") by (unfold quoted; now rewrite IV). apply act_cons with (J p e (quoted D d :: b "div" :: X)); [rewrite Q; evJ; apply go_quote|]. step_J ltac:(apply go_simple_content).
      eapply act_cons; [now apply texts_J|]. step_J ltac:(apply go_default_newlines). eapply act_cons; [apply quote_go; [exact F2|exact F3|rewrite IV; discriminate]|]. eapply act_cons; [|stop]. ev. apply quote_end.
    - now apply callouts_go.
    - destruct F5 as [F5 F6]. now apply dlist_go.
    - step_J ltac:(apply go_discrete). eapply act_cons; [now apply texts_J|]. step_J ltac:(apply go_discrete'). stop.
    - ev. intros h h' (f & m & cl & x & H & K) E. eexists f, _, cl, x. split; [exact (tri_decl D en _ _ f m cl x h h' H E)|]. cbn [fine] in F5.
      pose proof (insert_keeps m (fst (n_decl D en)) (snd (n_decl D en))) as [I1 I2]. destruct K as (K1 & K2 & K3 & K4 & K5 & K6 & K7 & K8). unfold okJ, alone in *. rewrite I1, I2. repeat (split; [assumption|]).
      split; [congruence|exact K8].
    - step_J ltac:(apply go_image_block). step_J ltac:(apply go_image_block'). stop.
    - eapply five; [|apply (content_params (fun v => code_if (q_v v) (b "pre" :: b "div" :: b "div" :: X)) (fun v => with_source (q_v v) (q_f v)) (fun v => okJ p e (q_f v) (q_m v) (q_c v))); exact F5|].
      + ev. intros h h' (f & m & cl & x & H & K) E. destruct (tri_listing D d X f m cl x (proj1 K) h h' H E) as (v & H'). now exists (Params v f m cl x).
      + ev. intros h h' ([v f m cl x] & H & K) E. cbn [q_v q_f q_m q_c q_x] in *. exists (with_source false f), m, cl, x. split; [exact (tri_listing' v X f m cl x h h' H E)|].
        apply okJ_flags with f; try reflexivity; [|exact K]. symmetry. exact (proj1 K).
    - step_J ltac:(apply go_ol). eapply act_cons; [|step_J ltac:(apply go_ol'); stop]. apply act_each. intros i I. apply item_go with true; [exact T| |apply (proj1 (every_in _ _) B i I)|exact (proj1 (every_in _ _) F5 i I)].
      left. split; [apply L2; now left|reflexivity].
    - eapply five; [|apply (content_params (fun v => para D d (q_f v) (q_m v) X) q_f (fun v => okJ p e (q_f v) (q_m v) (q_c v))); exact F5|].
      + ev. intros h h' (f & m & cl & x & H & K) E. exists (Params false f m cl x). split; [exact (tri_paragraph D d X f m cl x h h' H E)|exact K].
      + ev. intros h h' ([v f m cl x] & H & K) E. cbn [q_v q_f q_m q_c q_x] in *. eexists _, m, cl, x. split; [exact (tri_paragraph' D d X f m cl x h h' H E)|].
        apply okJ_flags with f; try (destruct (doctype_eqb _ _); reflexivity). exact K.
    - assert (Q : quoted D d = b "blockquote") by (unfold quoted; now rewrite IV). destruct F5 as (F5 & F6 & F7). apply act_cons with (J p e (quoted D d :: b "div" :: X)); [rewrite Q; evJ; apply go_quote|].
      eapply act_cons; [now apply texts_J|]. eapply act_cons; [apply quote_go; [exact F6|exact F7|rewrite IV; discriminate]|]. cbn [some orb]. step_J ltac:(apply go_quoted_paragraph'). stop.
    - step_J ltac:(apply go_ul). eapply act_cons; [|step_J ltac:(apply go_ul'); stop]. apply act_each. intros i I. apply item_go with true; [exact T| |apply (proj1 (every_in _ _) B i I)|exact (proj1 (every_in _ _) F5 i I)].
      left. split; [apply L2; now right|reflexivity].
    - assert (Q : quoted D d = b "pre") by (unfold quoted; now rewrite IV). apply act_cons with (J p e (quoted D d :: b "div" :: X)); [rewrite Q; evJ; apply go_verse|]. step_J ltac:(apply go_simple_content).
      eapply act_cons; [now apply texts_J|]. step_J ltac:(apply go_default_newlines). eapply act_cons; [apply quote_go; [exact F2|exact F3|intros _; now apply F4]|]. eapply act_cons; [|stop]. ev. apply quote_end.
  Qed.
  Lemma all_closed doc es ps : eval_document anchors wants fuel doc = Done es -> fine_document D doc -> output D debug (out es) = Ret ps -> closed ps.
  Proof.
    intros E F O. assert (G : act (A (Out, []) [] no_flags empty_meta false 0) (visit_document anchors wants fuel evb doc) (fun h => closed (html h) /\ Forall (fun n => closed (snd n)) (notes h))).
    { apply document_go with top; [reflexivity|reflexivity|reflexivity|apply content_all_, all_blocks|exact F]. }
    destruct (G _ _ E) as (l & El & W). cbn in El. rewrite El in O. unfold output in O. destruct (calls D debug l fresh) as [s|] eqn:C; [|discriminate O]. injection O as <-. apply (W fresh s); [|exact C].
    repeat split. constructor.
  Qed.
End Blocks.
