(** Proofs about C64, last part: from the calls to the document. *)
From Verif Require Import Base AttrsModel EvalModel EscapeModel EvalSpec EvalProofs HtmlModel HtmlSpec HtmlScanProofs HtmlTagProofs HtmlCallProofs HtmlPartProofs.
From Verif Require Import Html5sModel Html5sSpec Html5sCallProofs Html5sPartProofs Html5sDocProofs.
Open Scope string_scope.
Open Scope nat_scope.
Open Scope list_scope.

Section Acts.
  Context (D : details) (debug : bool).
  Notation calls := (calls5 D debug).
  Lemma calls_app l l' s : calls (l ++ l') s = bind (calls l) (calls l') s.
  Proof. revert s. induction l as [|e l IH]; intros s; [reflexivity|]. cbn. unfold bind in *. destruct (call5 D debug e s); [apply IH|reflexivity]. Qed.
  (** the calls made by [f] lead from [P] to [Q] *)
  Definition act (P : hst -> Prop) (f : action) (Q : hst -> Prop) : Prop := forall e e', f e = Done e' -> exists l, out e' = out e ++ l /\ tri P (calls l) Q.
  Lemma act_weak (P P' Q Q' : hst -> Prop) f : (forall h, P h -> P' h) -> (forall h, Q' h -> Q h) -> act P' f Q' -> act P f Q.
  Proof. intros X Y H e e' E. destruct (H e e' E) as (l & O & T). exists l. split; [exact O|]. eapply tri_weak; eauto. Qed.
  Lemma act_pre (P P' Q : hst -> Prop) f : (forall h, P h -> P' h) -> act P' f Q -> act P f Q.
  Proof. intros X. now apply act_weak. Qed.
  Lemma act_post (P Q Q' : hst -> Prop) f : (forall h, Q' h -> Q h) -> act P f Q' -> act P f Q.
  Proof. intros X. now apply act_weak. Qed.
  Lemma act_ex {V} (v0 : V) (P : V -> hst -> Prop) f Q : (forall v, act (P v) f Q) -> act (fun h => exists v, P v h) f Q.
  Proof.
    intros H e e' E. destruct (H v0 e e' E) as (l & O & _). exists l. split; [exact O|]. intros h h' (v & X) C. destruct (H v e e' E) as (l' & O' & T).
    rewrite O in O'. apply app_inv_head in O'. subst l'. exact (T h h' X C).
  Qed.
  Lemma act_prop (A0 : Prop) (P : hst -> Prop) f Q : (A0 -> act P f Q) -> act P f (fun _ => True) -> act (fun h => A0 /\ P h) f Q.
  Proof.
    intros H G e e' E. destruct (G e e' E) as (l & O & _). exists l. split; [exact O|]. intros h h' (v & X) C. destruct (H v e e' E) as (l' & O' & T).
    rewrite O in O'. apply app_inv_head in O'. subst l'. exact (T h h' X C).
  Qed.
  Lemma act_emit P ev Q : tri P (call5 D debug ev) Q -> act P (emit ev) Q.
  Proof.
    intros H e e' E. injection E as <-. exists [ev]. split; [reflexivity|]. intros h h' X C. apply (H h h' X). cbn in C. unfold bind in C. destruct (call5 D debug ev h); [exact C|discriminate C].
  Qed.
  Lemma act_skip P : act P skip P.
  Proof. intros e e' E. injection E as <-. exists []. split; [now rewrite app_nil_r|]. apply tri_nil. Qed.
  Lemma act_crash P Q : act P (fun _ => Crash) Q.
  Proof. intros e e' E. discriminate E. Qed.
  Lemma act_loops P Q : act P (fun _ => Loops) Q.
  Proof. intros e e' E. discriminate E. Qed.
  Lemma act_then P Q R f g : act P f Q -> act Q g R -> act P (then_ f g) R.
  Proof.
    intros F G e e' E. unfold then_ in E. destruct (f e) as [m| |] eqn:Ef; try discriminate E. destruct (F e m Ef) as (l & O & T). destruct (G m e' E) as (l' & O' & T').
    exists (l ++ l'). split; [now rewrite O', O, app_assoc|]. intros h h' X C. rewrite calls_app in C. exact (tri_bind P Q R _ _ T T' h h' X C).
  Qed.
  Lemma act_cons P Q R f l : act P f Q -> act Q (seq l) R -> act P (seq (f :: l)) R.
  Proof. apply act_then. Qed.
  Lemma act_nil P : act P (seq []) P.
  Proof. apply act_skip. Qed.
  Lemma act_each {V} P (f : V -> action) l : (forall v, In v l -> act P (f v) P) -> act P (each f l) P.
  Proof. induction l as [|v l IH]; intros H; [apply act_skip|]. apply act_then with P; [apply H; now left|]. apply IH. intros w W. apply H. now right. Qed.
  Lemma act_replace v k P Q : (forall r, act P (k r) Q) -> act P (replace_resolving v k) Q.
  Proof. intros H e e' E. exact (H (resolving e) _ e' E). Qed.
  Lemma act_ask wants f g P Q : act P f Q -> act P g Q -> act P (ask wants f g) Q.
  Proof. intros F G e e' E. unfold ask in E. destruct (wants (out e)); eauto. Qed.
  Lemma act_one P Q f : act P f Q -> act P (seq [f]) Q.
  Proof. intros H. eapply act_cons; [exact H|apply act_nil]. Qed.
End Acts.


Ltac ev :=
  lazymatch goal with
  | |- act _ _ _ (enter _ _) _ => apply act_emit
  | |- act _ _ _ (exit _ _) _ => apply act_emit
  | |- act _ _ _ (visit _ _ _) _ => apply act_emit
  | _ => idtac
  end;
  cbn [call5];
  lazymatch goal with
  | |- tri _ (match ?h with _ => _ end) _ =>
      let v := eval lazy [handler enters5 exits5 visits5 spans5 app map span_name String.eqb Ascii.eqb Bool.eqb] in h in
      change h with v; cbv beta iota; unfold arg; cbn [nth]
  end.

(** What is known about the other buffer, and holds of the empty one when it holds of one in which nothing is written. *)
Definition steady (P : pieces -> Prop) : Prop := forall l, P l -> bytes_of l = [] -> P [].
Definition AP (P : pieces -> Prop) q a f m c x (h : hst) : Prop := A q a f m c x h /\ P (alt h).
Definition anything (l : pieces) : Prop := True.
Lemma steady_any : steady anything.
Proof. intros l _ _. exact I. Qed.
Lemma tri_AP P q a f m c x cmd q' a' f' m' c' x' : steady P -> tri (A q a f m c x) cmd (A q' a' f' m' c' x') -> settles Keep cmd -> tri (AP P q a f m c x) cmd (AP P q' a' f' m' c' x').
Proof. intros S T K h h' [H H'] E. split; [exact (T h h' H E)|]. destruct (K h h' E) as [->|[B ->]]; [exact H'|exact (S _ H' B)]. Qed.
Lemma mv_AP P a X cmd Y f m c x : steady P -> mv Keep a X cmd Y -> tri (AP P (Out, X) a f m c x) cmd (AP P (Out, Y) a f m c x).
Proof. intros S [G K]. apply tri_AP; auto. Qed.

Section Inline.
  Context (D : details) (debug : bool) (anchors : anchor_table) (wants : list event -> bool) (AT : anchors_tidy5 D anchors).
  Notation act := (act D debug).
  Definition inline_ok (fuel : nat) (n : bool) (i : inline) : Prop :=
    tidy5 D n i = true -> forall P X a f m c x, steady P -> (n = true -> a = [] /\ P []) -> act (AP P (Out, X) a f m c x) (eval_inline anchors wants fuel i) (AP P (Out, X) a f m c x).
  Lemma each_ok fuel n l : (forall i, In i l -> inline_ok fuel n i) -> forallb (tidy5 D n) l = true ->
    forall P X a f m c x, steady P -> (n = true -> a = [] /\ P []) -> act (AP P (Out, X) a f m c x) (each (eval_inline anchors wants fuel) l) (AP P (Out, X) a f m c x).
  Proof. intros H T P X a f m c x S N. apply act_each. intros i I. apply H; auto. rewrite forallb_forall in T. now apply T. Qed.
  Ltac nil := apply act_nil.
  Lemma inline_go fuel : forall i n, inline_ok fuel n i.
  Proof.
    induction fuel as [fuel IHf] using (well_founded_induction Wf_nat.lt_wf).
    induction i as [i K] using inline_rect'.
    assert (EO : forall n l, every (fun i => forall n, inline_ok fuel n i) l -> forallb (tidy5 D n) l = true -> forall P X a f m c x, steady P -> (n = true -> a = [] /\ P []) ->
      act (AP P (Out, X) a f m c x) (each (eval_inline anchors wants fuel) l) (AP P (Out, X) a f m c x)).
    { intros n l E. apply each_ok. intros i0 I. exact (proj1 (every_in _ l) E i0 I n). }
    intros n T P X a f m c x ST N.
    assert (Q0 : forall q, tri (AP P q a f m c x) nothing (AP P q a f m c x)) by (intros; apply tri_nothing).
    destruct i as [k d l|l|t|name d|d l|d o|d o|target d o|d o|id|l|p s t|]; cbn [kids] in K; cbn [tidy5] in T.
    - rewrite span_eq. apply act_cons with (AP P (Out, (match k with SText => text_tag D d | _ => span_bytes k end) :: X) a f m c x); [|eapply act_cons; [now apply EO with n|eapply act_cons; [|nil]]].
      + destruct k; ev; apply mv_AP; try exact ST; first [apply mv_text_span|apply mv_span].
      + destruct k; ev; apply mv_AP; try exact ST; first [apply mv_text_span'|match goal with |- context [exit_span ?k] => apply (mv_span' k) end].
    - rewrite passthru_eq. eapply act_cons; [|eapply act_cons; [|eapply act_cons; [|nil]]]; [ev; apply tri_nothing|now apply EO with n|ev; apply tri_nothing].
    - replace (eval_inline anchors wants fuel (IText t)) with (visit "inline_text" 0 t) by (destruct fuel; reflexivity). ev. apply tri_AP; [exact ST|apply tri_put; lit|apply se_put].
    - replace (eval_inline anchors wants fuel (ILeaf name d)) with (visit name d "") by (destruct fuel; reflexivity). apply act_emit. apply mv_AP; [exact ST|now apply mv_leaf].
    - rewrite quote_eq. eapply act_cons; [ev; apply mv_AP; [exact ST|apply mv_quotation]|]. eapply act_cons; [now apply EO with n|]. eapply act_cons; [ev; apply mv_AP; [exact ST|apply mv_quotation']|nil].
    - rewrite footnote_eq. apply andb_true_iff in T as [T1 T2]. destruct (N T1) as [-> PN]. apply act_cons with (AP anything (Out, []) X f m c x).
      { ev. intros h h' [H _] E. split; [exact (tri_footnote5 D debug d X f m c x h h' H E)|exact I]. }
      apply act_cons with (AP anything (Out, []) X f m c x); [|apply act_cons with (AP P (Out, X) [] f m c x); [ev; intros h h' [H _] E; split; [exact (tri_footnote5' D d X f m c x h h' H E)|rewrite (se_footnote' D d h h' E); exact PN]|nil]].
      destruct o as [l|]; cbn [each_opt]; [|apply act_skip]. apply EO with false; [exact K|exact T2|exact steady_any|discriminate].
    - rewrite link_eq. intros e e'. generalize (flag (resolving e)). intros r. revert e e'.
      destruct o as [l|].
      + change (act (AP P (Out, X) a f m c x) (seq [enter "link_macro" [d; r; 1]; each (eval_inline anchors wants fuel) l; exit "link_macro" [d; r; 1]]) (AP P (Out, X) a f m c x)).
        eapply act_cons; [ev; apply tri_AP; [exact ST|apply tri_link|apply se_link]|]. eapply act_cons; [now apply EO with n|]. eapply act_cons; [ev; apply tri_AP; [exact ST|apply tri_link'|apply se_link']|nil].
      + change (act (AP P (Out, X) a f m c x) (seq [enter "link_macro" [d; r; 0]; exit "link_macro" [d; r; 0]]) (AP P (Out, X) a f m c x)).
        eapply act_cons; [ev; apply tri_AP; [exact ST|apply tri_link|apply se_link]|]. eapply act_cons; [ev; apply tri_AP; [exact ST|apply tri_link'|apply se_link']|nil].
    - rewrite xref_eq. eapply act_cons; [ev; apply tri_AP; [exact ST|apply tri_xref|apply se_xref]|].
      eapply act_cons; [|eapply act_cons; [apply act_replace; intros; apply act_skip|eapply act_cons; [ev; apply tri_AP; [exact ST|apply tri_xref'|apply se_xref']|nil]]].
      apply act_replace. intros r. cbv zeta. set (B := AP P (Out, xref_open x X) a f m c (S x)).
      assert (Miss : act B (visit "missing_xref" 0 target) B).
      { unfold B. ev. apply tri_AP; [exact ST|apply tri_look; intros s _; apply tri_put; lit|unfold visit_missing_xref; sek]. }
      destruct r; [exact Miss|]. destruct (text_of_xref anchors target o) as [l|] eqn:E; [|exact Miss].
      set (biblio := flag _). clearbody biblio.
      assert (Around : forall g, act B g B -> act B (seq [enter "xref_text" [biblio]; g; exit "xref_text" [biblio]]) B).
      { intros g G. eapply act_cons; [ev; apply tri_AP; [exact ST|apply go_xref_text|apply se_put]|]. eapply act_cons; [exact G|]. eapply act_cons; [ev; apply tri_AP; [exact ST|apply go_xref_text'|apply se_put]|nil]. }
      assert (Own : o = Some l -> act B (each (eval_inline anchors wants fuel) l) B).
      { intros ->. now apply EO with n. }
      unfold text_of_xref in E. destruct (lookup anchors (get_id target)) as [an|] eqn:L.
      + destruct (AT _ _ L) as [TR TT].
        assert (Anch : forall t, words D false t -> t = l -> act B (match fuel with 0 => fun _ => Loops | S f => seq [enter "xref_text" [biblio]; each (eval_inline anchors wants f) l; exit "xref_text" [biblio]] end) B).
        { intros t Tt <-. destruct fuel as [|fuel']; [apply act_loops|]. apply Around. apply (each_ok fuel' false); [|exact Tt|exact ST|discriminate]. intros i0 _. apply IHf. lia. }
        destruct (reftext an) as [[|y r]|].
        * apply Around, Own. destruct o; [now injection E as ->|discriminate E].
        * injection E as <-. exact (Anch _ TR eq_refl).
        * destruct o as [o|]; cbn [some negb]; [apply Around, Own; now injection E as ->|]. destruct (a_title an) as [|z t]; [discriminate E|]. injection E as <-. exact (Anch _ TT eq_refl).
      + apply Around, Own. exact E.
    - rewrite mailto_eq. eapply act_cons; [ev; apply mv_AP; [exact ST|apply mv_mailto]|]. eapply act_cons; [|eapply act_cons; [ev; apply tri_AP; [exact ST|apply go_mailto'|apply se_put]|nil]].
      destruct o as [l|]; cbn [each_opt]; [now apply EO with n|apply act_skip].
    - replace (eval_inline anchors wants fuel (IBiblio id)) with (visit "biblio_anchor" 0 id) by (destruct fuel; reflexivity). ev. apply tri_AP; [exact ST|apply tri_put; lit|apply se_put].
    - rewrite visible_eq. eapply act_cons; [ev; apply tri_nothing|]. eapply act_cons; [|nil]. apply act_ask; [now apply EO with n|apply act_skip].
    - rewrite concealed_eq. cbv zeta. destruct K as (Kp & Ks & Kt). apply andb_true_iff in T as [T Tt]. apply andb_true_iff in T as [Tp Ts].
      eapply act_cons; [ev; apply tri_nothing|]. eapply act_cons; [|eapply act_cons; [ev; apply tri_nothing|nil]]. apply act_ask; [|apply act_skip].
      eapply act_cons; [ev; apply tri_nothing|]. eapply act_cons; [now apply EO with n|]. eapply act_cons; [ev; apply tri_nothing|].
      eapply act_cons; [|eapply act_cons; [|nil]].
      + destruct s as [l|]; [|apply act_skip]. eapply act_cons; [ev; apply tri_nothing|]. eapply act_cons; [now apply EO with n|]. eapply act_cons; [ev; apply tri_nothing|nil].
      + destruct t as [l|]; [|apply act_skip]. eapply act_cons; [ev; apply tri_nothing|]. eapply act_cons; [now apply EO with n|]. eapply act_cons; [ev; apply tri_nothing|nil].
    - replace (eval_inline anchors wants fuel INothing) with skip by (destruct fuel; reflexivity). apply act_skip.
  Qed.
End Inline.

(** ** Blocks *)
(** nothing is written in the other buffer *)
Definition W (w : bool) (l : pieces) : Prop := w = true -> bytes_of l = [].
Lemma steady_W w : steady (W w).
Proof. intros l _ _ _. reflexivity. Qed.
Lemma W_nil w : W w [].
Proof. intros _. reflexivity. Qed.
(** what is known inside a block: the type of document, whether it is embedded, whether it is written with its head, and whether it is that of an AsciiDoc cell *)
Record env5 := Env5 { v_dt : doctype; v_em : bool; v_sa : bool; v_cell : bool }.
Definition okJ5 (e : env5) (f : flags) (m : meta) (c : bool) : Prop :=
  f_source f = false /\ m_doctype m = v_dt e /\ m_embedded m = v_em e /\ alone m c = v_sa e /\ (v_cell e = false -> alone m false = v_sa e).
Definition J (P : pieces -> Prop) (a : list bytes) (e : env5) (X : list bytes) (h : hst) : Prop := exists f m c x, AP P (Out, X) a f m c x h /\ okJ5 e f m c.
(** and, when [ed], what is written ends with the end of a division *)
Definition JE (ed w : bool) (e : env5) (X : list bytes) (h : hst) : Prop := J (W w) [] e X h /\ (ed = true -> ends_div X (html h)).

Section Blocks.
  Context (D : details) (debug : bool) (anchors : anchor_table) (wants : list event -> bool) (AT : anchors_tidy5 D anchors) (fuel : nat).
  Notation act := (act D debug).
  Ltac sw := first [eassumption|apply steady_W].
  Lemma tri_J P a e X c Y : steady P -> mv Keep a X c Y -> tri (J P a e X) c (J P a e Y).
  Proof. intros S M h h' (f & m & cl & x & H & K) E. exists f, m, cl, x. split; [|exact K]. exact (mv_AP P a X c Y f m cl x S M h h' H E). Qed.
  Lemma tri_Jf P a e X c Y (g : flags -> flags) : steady P -> (forall f, f_source (g f) = f_source f) ->
    (forall f m cl x, tri (A (Out, X) a f m cl x) c (A (Out, Y) a (g f) m cl x)) -> settles Keep c -> tri (J P a e X) c (J P a e Y).
  Proof.
    intros S G H SE h h' (f & m & cl & x & H' & K) E. exists (g f), m, cl, x. split; [exact (tri_AP P _ _ _ _ _ _ _ _ _ _ _ _ _ S (H f m cl x) SE h h' H' E)|].
    destruct K as (K1 & K2). split; [now rewrite G|exact K2].
  Qed.
  Lemma act_J0 P a P' a' e X f Y : (forall fl m c x, act (AP P (Out, X) a fl m c x) f (AP P' (Out, Y) a' fl m c x)) -> act (J P a e X) f (J P' a' e Y).
  Proof.
    intros H e0 e1 E. destruct (H no_flags empty_meta false 0 e0 e1 E) as (l & O & _). exists l. split; [exact O|]. intros h h' (fl & m & c & x & H' & K) C.
    exists fl, m, c, x. split; [|exact K]. destruct (H fl m c x e0 e1 E) as (l' & O' & T). rewrite O in O'. apply app_inv_head in O'. subst l'. exact (T h h' H' C).
  Qed.
  Lemma words_AP n l P X a f m c x : words D n l -> steady P -> (n = true -> a = [] /\ P []) -> act (AP P (Out, X) a f m c x) (inlines anchors wants fuel l) (AP P (Out, X) a f m c x).
  Proof. intros T S N. apply (each_ok D debug anchors wants fuel n); [|exact T|exact S|exact N]. intros i _. now apply inline_go. Qed.
  Lemma words_J n l P X a e : words D n l -> steady P -> (n = true -> a = [] /\ P []) -> act (J P a e X) (inlines anchors wants fuel l) (J P a e X).
  Proof. intros T S N. apply act_J0. intros. now apply words_AP with n. Qed.
  Lemma texts_J l w X e : words D true l -> act (J (W w) [] e X) (inlines anchors wants fuel l) (J (W w) [] e X).
  Proof. intros T. apply words_J with true; [exact T|apply steady_W|]. intros _. split; [reflexivity|apply W_nil]. Qed.
  Lemma texts_opt_J o w X e : words_opt D true o -> act (J (W w) [] e X) (inlines_opt anchors wants fuel o) (J (W w) [] e X).
  Proof. destruct o as [l|]; [apply texts_J|intros _; apply act_skip]. Qed.
  Ltac evJ := ev; apply tri_J; [sw|].
  Ltac stop := apply act_nil.
  Ltac step_J t := eapply act_cons; [evJ; t|].

  (** ** Tables of contents *)
  Lemma toc_node_J P a e n : steady P -> (n = true -> a = [] /\ P []) -> forall k X, toc_tidy5 D n k -> act (J P a e X) (eval_toc_node anchors wants fuel k) (J P a e X).
  Proof.
    intros S N. induction k as [d level title children IH] using toc_rect'. intros X [T C]. cbn [eval_toc_node].
    eapply act_cons. { ev. eapply (tri_Jf P a e X _ _ (fun f => if is_appendix D d then with_appendix true f else f)); [exact S|intros f; destruct (is_appendix D d); reflexivity|intros; apply tri_toc_node|apply se_toc_node]. }
    eapply act_cons; [ev; apply tri_nothing|]. eapply act_cons; [now apply words_J with n|]. step_J ltac:(apply mv_toc_content').
    eapply act_cons; [|eapply act_cons; [|stop]].
    2: { ev. eapply (tri_Jf P a e _ _ _ (fun f => if is_appendix D d then with_appendix false f else f)); [exact S|intros f; destruct (is_appendix D d); reflexivity|intros; apply tri_toc_node'|apply se_toc_node']. }
    destruct children as [|[d' lv t' ch'] l] eqn:Ec; [apply act_skip|]. rewrite <- Ec in *. clear Ec. step_J ltac:(apply mv_toc_level). eapply act_cons; [|step_J ltac:(apply mv_toc_level'); stop].
    apply act_each. intros k I. apply (proj1 (every_in _ children) IH k I). apply (proj1 (every_in _ children) C k I).
  Qed.
  Lemma toc_level_J P a e n l X : steady P -> (n = true -> a = [] /\ P []) -> every (toc_tidy5 D n) l -> act (J P a e X) (eval_toc_level anchors wants fuel l) (J P a e X).
  Proof.
    intros S N T. destruct l as [|[d level title children] l0] eqn:E; [apply act_skip|]. cbn [eval_toc_level]. rewrite <- E in *. clear E.
    step_J ltac:(apply mv_toc_level). eapply act_cons; [|step_J ltac:(apply mv_toc_level'); stop]. apply act_each. intros k I. apply toc_node_J with n; auto. exact (proj1 (every_in _ l) T k I).
  Qed.
  Definition toc_fine (t : option toc) : Prop := toc_label D t /\ tocs_tidy5 D t.
  Lemma toc_at_J w e t ps X : toc_fine t -> existsb (position_eqb PPreamble) ps = false -> act (J (W w) [] e X) (eval_toc_at anchors wants fuel t ps) (J (W w) [] e X).
  Proof.
    intros [L T] P. destruct t as [t|]; [|apply act_skip]. cbn [toc_label tocs_tidy5] in *. unfold eval_toc_at. destruct (existsb (position_eqb (position t)) ps) eqn:Ex; [|apply act_skip].
    destruct (negb (match toc_nodes t with [] => true | _ => false end)); [|apply act_skip]. cbn [andb].
    assert (NP : is_pre D (toc_d t) = false). { unfold is_pre. rewrite L. destruct (position t); try reflexivity. congruence. }
    assert (NP' : position_eqb (position t) PPreamble = false) by (unfold is_pre in NP; now rewrite L in NP). rewrite NP' in T.
    apply act_cons with (J (W w) [] e (b "nav" :: X)).
    { ev. eapply (tri_Jf _ _ e _ _ _ (with_toc true)); [sw|reflexivity| |now apply se_toc]. intros f m c x. pose proof (tri_toc5 D debug (toc_d t) [] X f m c x) as G. rewrite NP in G. exact G. }
    eapply act_cons; [apply toc_level_J with true; [sw|intros _; split; [reflexivity|apply W_nil]|exact T]|]. eapply act_cons; [|stop].
    ev. eapply (tri_Jf _ _ e _ _ _ (with_toc false)); [sw|reflexivity|intros; apply tri_toc5'|apply se_toc'].
  Qed.
  (** the table of contents in the place of the preamble, and the end of the preamble *)
  Lemma preamble_tail e t has X : toc_fine t -> act (J (W true) [] e (preamble_open5 has X)) (seq [eval_toc_at anchors wants fuel t [PPreamble]; exit "preamble" [has]]) (J (W true) [] e X).
  Proof.
    intros [L T].
    assert (No : act (J (W true) [] e (preamble_open5 has X)) (seq [skip; exit "preamble" [has]]) (J (W true) [] e X)).
    { eapply act_cons; [apply act_skip|]. eapply act_cons; [|stop]. ev. intros h h' (f & m & c & x & [H H'] & K) E. exists f, m, c, x. split; [|exact K].
      destruct (tri_preamble_end has [] X f m c x h h' (conj H (H' eq_refl)) E) as [G1 G2]. split; [exact G1|intros _; exact G2]. }
    destruct t as [t|]; [|exact No]. cbn [toc_label tocs_tidy5] in *. unfold eval_toc_at. cbn [existsb]. destruct (position t) eqn:Ep; try exact No.
    destruct (negb (match toc_nodes t with [] => true | _ => false end)); [|exact No]. cbn [position_eqb orb andb negb] in *. clear No.
    assert (IP : is_pre D (toc_d t) = true) by (unfold is_pre; rewrite L; reflexivity).
    eapply act_cons with (Q := J anything (preamble_open5 has X) e []); [|eapply act_cons; [|stop]].
    - apply act_cons with (J anything (preamble_open5 has X) e [b "nav"]).
      { ev. intros h h' (f & m & c & x & [H _] & K) E. exists (with_toc true f), m, c, x. split; [|exact K]. pose proof (tri_toc5 D debug (toc_d t) [] (preamble_open5 has X) f m c x h h' H E) as G. rewrite IP in G. split; [exact G|exact I]. }
      eapply act_cons; [apply toc_level_J with false; [exact steady_any|discriminate|exact T]|]. eapply act_cons; [|stop].
      ev. eapply (tri_Jf _ _ e _ _ _ (with_toc false)); [exact steady_any|reflexivity|intros; apply tri_toc5'|apply se_toc'].
    - ev. intros h h' (f & m & c & x & [H _] & K) E. exists f, m, c, x. split; [|exact K]. destruct (tri_preamble_toc has X f m c x h h' H E) as [G1 G2]. split; [exact G1|intros _; exact G2].
  Qed.

  (** ** Titles *)
  Lemma steady_ends ed X : steady (fun l => ed = true -> ends_div X l).
  Proof.
    intros l H B E. destruct (H E) as (r & -> & _). exfalso. unfold bytes_of in B. rewrite flat_map_app in B. apply app_eq_nil in B as [_ B]. discriminate B.
  Qed.
  Lemma title_go ed w e X d title : words_opt D false title ->
    act (JE ed w e X) (match title with Some l => seq [enter "meta_title" [d]; inlines anchors wants fuel l; exit "meta_title" [d]] | None => skip end)
      (JE ed (w && (negb (some title) || is_passthrough D d)) e X).
  Proof.
    intros T. destruct title as [l|]; cbn [some negb orb].
    2: { rewrite andb_true_r. apply act_skip. }
    apply act_cons with (J (fun l => ed = true -> ends_div X l) X e []).
    { ev. intros h h' ((f & m & c & x & [H _] & K) & N) E. exists f, m, c, x. split; [|exact K]. split; [exact (tri_title debug X f m c x h h' H E)|].
      unfold enter_meta_title, start_buffering, look in E. destruct (_ && _); [discriminate E|]. injection E as <-. exact N. }
    eapply act_cons; [apply words_J with false; [exact T|apply steady_ends|discriminate]|]. eapply act_cons; [|stop].
    ev. intros h h' (f & m & c & x & [H N] & K) E. split.
    - exists f, m, c, x. split; [|exact K]. split; [exact (tri_title' D d X f m c x h h' H E)|]. unfold exit_meta_title in E. destruct (is_passthrough D d); [|rewrite andb_false_r; discriminate].
      injection E as <-. apply W_nil.
    - intros Ed. unfold exit_meta_title in E. destruct (is_passthrough D d); injection E as <-; exact (N Ed).
  Qed.
  (** what writes a title leaves nothing behind *)
  Lemma W_weak (w w' : bool) l : (w' = true -> w = true) -> W w l -> W w' l.
  Proof. intros H N E. exact (N (H E)). Qed.
  Lemma J_weak w w' a e X h : (w' = true -> w = true) -> J (W w) a e X h -> J (W w') a e X h.
  Proof. intros N (f & m & c & x & [H H'] & K). exists f, m, c, x. split; [|exact K]. split; [exact H|exact (W_weak w w' _ N H')]. Qed.
  Lemma tri_tt (title : option (list inline)) pt d w e X c Y : n_title D d = some title -> mv (tt5 D d) [] X c Y ->
    pt = false -> tri (J (W (w && (negb (some title) || pt))) [] e X) c (J (W w) [] e Y).
  Proof.
    intros T [G S] Pt h h' (f & m & cl & x & [H N] & K) E. exists f, m, cl, x. split; [|exact K]. split; [exact (G f m cl x h h' H E)|]. specialize (S h h' E). unfold tt5 in S. rewrite T in S. subst pt.
    destruct title as [l|]; cbn [some negb orb] in *; [rewrite S; apply W_nil|]. rewrite andb_true_r in N. destruct S as [->| ->]; [exact N|apply W_nil].
  Qed.

  (** ** The parts that hold blocks *)
  Definition scene (t : option toc) (p : place5) (e : env5) : Prop := toc_fine t /\ doctype_eqb (v_dt e) Inline = p_inline p /\ v_cell e = p_in_cell p.
  Notation evb := (eval_block anchors wants fuel).
  Notation JW p := (J (W (p_pre p)) []).
  Definition block_go (k : block) : Prop := forall t p e X ed, scene t p e -> fine5 D p k -> (is_callouts k = true -> ed = true) -> act (JE ed (p_pre p) e X) (evb t k) (JE (before_callouts k) (p_pre p) e X).
  Lemma follow_JE t p e X l : scene t p e -> every block_go l -> every (fine5 D p) l -> forall ed, callouts_follow ed l -> act (JE ed (p_pre p) e X) (each (evb t) l) (JW p e X).
  Proof.
    intros T. induction l as [|k l IH]; intros B F ed C; [intros e0 e1 E; injection E as <-; exists []; split; [now rewrite app_nil_r|intros h h' [H _] R; injection R as <-; exact H]|].
    destruct B as [B1 B2], F as [F1 F2], C as [C1 C2]. apply act_then with (JE (before_callouts k) (p_pre p) e X); [now apply B1|now apply IH].
  Qed.
  Lemma JE_of w e X h : J (W w) [] e X h -> JE false w e X h.
  Proof. intros H. split; [exact H|discriminate]. Qed.
  Lemma JE_out ed w e X h : JE ed w e X h -> J (W w) [] e X h.
  Proof. now intros [H _]. Qed.
  Lemma blocks_J t p e X l : scene t p e -> every block_go l -> blocks_fine (fine5 D) p l -> act (JW p e X) (each (evb t) l) (JW p e X).
  Proof. intros T B [F C]. eapply act_pre; [apply JE_of|]. now apply follow_JE. Qed.
  Lemma section_go t p e X s : scene t p e -> section_fits block_go s -> section_fine5 D (fine5 D) p s -> act (JW p e X) (eval_section anchors wants fuel evb t s) (JW p e X).
  Proof.
    intros T B [F1 F2]. unfold eval_section.
    eapply act_cons. { ev. eapply (tri_Jf _ _ e X _ _ (fun f => if is_appendix D (s_d s) then with_appendix true f else if is_bibliography D (s_d s) then with_bibliography true f else f));
      [sw|intros f; destruct (is_appendix D (s_d s)), (is_bibliography D (s_d s)); reflexivity|intros; apply tri_section5|apply se_section]. }
    assert (H' : act (JW p e (b "section" :: X)) (seq [enter "section_heading" [s_d s]; inlines anchors wants fuel (s_heading s); exit "section_heading" [s_d s]]) (JW p e (b "section" :: X))).
    { apply act_J0. intros. eapply act_cons; [ev; apply tri_AP; [sw|apply tri_heading5|apply se_heading]|]. eapply act_cons; [apply words_AP with true; [exact F1|sw|intros _; split; [reflexivity|apply W_nil]]|].
      eapply act_cons; [ev; apply tri_AP; [sw|apply tri_heading5'|apply se_heading']|stop]. }
    assert (R : act (JW p e (b "section" :: X)) (seq [each (evb t) (s_blocks s); exit "section" [s_d s]]) (JW p e X)).
    { eapply act_cons; [now apply blocks_J|]. eapply act_cons; [|stop]. ev.
      eapply (tri_Jf _ _ e _ _ _ (fun f => if is_appendix D (s_d s) then with_appendix false f else if is_bibliography D (s_d s) then with_bibliography false f else f));
      [sw|intros f; destruct (is_appendix D (s_d s)), (is_bibliography D (s_d s)); reflexivity|intros; apply tri_section5'|apply se_section']. }
    intros e0 e1 E. refine (act_then D debug _ _ _ _ _ H' R e0 e1 _). revert E. cbn [seq]. unfold then_, enter, exit, emit, skip.
    repeat match goal with |- context [match ?f ?x with Done _ => _ | Crash => _ | Loops => _ end] => destruct (f x) end; auto.
  Qed.
  Lemma act_app P Q R l l' : act P (seq l) Q -> act Q (seq l') R -> act P (seq (l ++ l')) R.
  Proof.
    intros H G e0 e1 E. apply (act_then D debug P Q R _ _ H G e0 e1). revert E. clear. revert e0. induction l as [|f l IH]; intros e0; cbn [seq app]; [auto|]. unfold then_. destruct (f e0); auto.
    intros E. apply IH in E. exact E.
  Qed.
  Lemma part_go t p e X x : scene t p e -> part_fits block_go x -> part_fine5 D (fine5 D) p x -> act (JW p e X) (eval_book_part anchors wants fuel evb t x) (JW p e X).
  Proof.
    intros T [B1 B2] (F0 & F1 & F2 & F3 & F4). unfold eval_book_part. step_J ltac:(apply mv_part). step_J ltac:(apply (mv_part_title D _ _ _ F0)). eapply act_cons; [now apply texts_J|]. step_J ltac:(apply mv_part_title').
    eapply act_cons; [|eapply act_cons; [|step_J ltac:(apply mv_part'); stop]].
    - destruct (p_intro x) as [l|]; [|apply act_skip]. step_J ltac:(apply mv_part_intro). eapply act_cons; [now apply texts_opt_J|]. step_J ltac:(apply mv_part_content). eapply act_cons; [now apply blocks_J|].
      step_J ltac:(apply mv_part_content'). step_J ltac:(apply mv_part_intro'). stop.
    - apply act_each. intros s I. apply section_go; [exact T|exact (proj1 (every_in _ _) B2 s I)|exact (proj1 (every_in _ _) F4 s I)].
  Qed.
  Lemma mv_put_ a X ps Y : pscan (Out, X) ps = Some (Out, Y) -> mv Keep a X (put ps) Y.
  Proof. intros S. split; [now apply st_put|apply se_put]. Qed.
  Lemma item_go t p e v X i : scene t p e -> every block_go (i_blocks i) -> item_fine5 D (fine5 D) p i -> act (JW p e X) (eval_item anchors wants fuel evb t v i) (JW p e X).
  Proof.
    intros T B [F1 F2]. unfold eval_item. step_J ltac:(apply mv_item). eapply act_cons; [now apply texts_J|]. step_J ltac:(apply mv_item'). eapply act_cons; [ev; apply tri_nothing|].
    eapply act_cons; [now apply blocks_J|]. apply act_cons with (JW p e X); [evJ; apply mv_put_; lit|stop].
  Qed.
  Lemma description_go t p e X i : scene t p e -> item_all block_go i -> description_fine5 D (fine5 D) p i -> act (JW p e X) (eval_description anchors wants fuel evb t i) (JW p e X).
  Proof.
    intros T [B1 B2] (F1 & F2 & F3). unfold eval_description. destruct (i_meta i) as [extra description|]; [|apply act_crash]. cbv zeta. destruct F3 as [F3 F4].
    assert (Term : forall l n, words D true l -> act (JW p e X) (seq [enter "description_list_term" [i_d i; n; 1 + length extra]; inlines anchors wants fuel l; exit "description_list_term" [i_d i; n; 1 + length extra]]) (JW p e X)).
    { intros l n Tl. apply act_cons with (JW p e (b "dt" :: X)); [evJ; apply mv_put_; lit|]. eapply act_cons; [now apply texts_J|]. eapply act_cons; [evJ; apply mv_put_; lit|stop]. }
    match goal with |- act _ (seq [?x; ?y; ?z; ?u; ?v]) _ => apply (act_app (JW p e X) (JW p e X) (JW p e X) [x; y; z] [u; v]) end; [now apply Term|].
    eapply act_cons; [|eapply act_cons; [|stop]].
    - assert (M : forall l n, every (words D true) l -> act (JW p e X) (eval_terms anchors wants fuel (i_d i) (1 + length extra) n l) (JW p e X)).
      { induction l as [|l1 l IH]; intros n L; [apply act_skip|]. destruct L as [L1 L2]. cbn [eval_terms].
        match goal with |- act _ (seq [?x; ?y; ?z; ?u]) _ => apply (act_app (JW p e X) (JW p e X) (JW p e X) [x; y; z] [u]) end; [now apply Term|]. apply act_one. now apply IH. }
      now apply M.
    - destruct (some description || _); [|apply act_skip]. apply act_cons with (JW p e (b "dd" :: X)); [evJ; apply mv_put_; lit|]. apply act_cons with (JW p e (b "dd" :: X)); [|apply act_cons with (JW p e (b "dd" :: X))].
      + destruct description as [k|]; [|apply act_skip]. eapply act_cons.
        { ev. eapply (tri_Jf _ _ e _ _ _ (fun f => if n_flag D (i_d i) "text-only" then with_term true f else f)); [sw|intros f; destruct (n_flag _ _ _); reflexivity|intros; apply tri_flags|apply se_flags]. }
        eapply act_cons. { destruct F4 as [[F4 _] [F5 _]]. eapply act_weak; [apply JE_of|apply JE_out|]. apply B2; [exact T|exact F4|exact F5]. }
        eapply act_cons; [|stop]. ev. eapply (tri_Jf _ _ e _ _ _ (with_term false)); [sw|reflexivity|intros; apply tri_flags|apply se_flags].
      + destruct F2 as [F2 C]. apply act_pre with (JE false (p_pre p) e (b "dd" :: X)); [apply JE_of|].
        enough (M : forall l ed, every block_go l -> every (fine5 D p) l -> callouts_follow ed l -> act (JE ed (p_pre p) e (b "dd" :: X))
          (each (fun k => seq [enter "description_list_description_block" [i_d i]; evb t k; exit "description_list_description_block" [i_d i]]) l) (JW p e (b "dd" :: X))) by now apply M.
        induction l as [|k l IH]; intros ed B F C2.
        * intros e0 e1 E; injection E as <-; exists []; split; [now rewrite app_nil_r|intros h h' [H _] R; injection R as <-; exact H].
        * destruct B as [Ba Bb], F as [Fa Fb], C2 as [Ca Cb]. apply act_then with (JE (before_callouts k) (p_pre p) e (b "dd" :: X)); [|now apply IH].
          eapply act_cons; [ev; apply tri_nothing|]. eapply act_cons; [now apply Ba|]. eapply act_cons; [ev; apply tri_nothing|stop].
      + eapply act_cons; [evJ; apply mv_put_; lit|stop].
  Qed.
  (** ** Quotes *)
  Lemma quote_go w e X d attr cite : words_opt D true attr -> words_opt D true cite -> (is_quoted_paragraph D d = true -> some attr = true) ->
    act (J (W w) [] e (att_stack D d X)) (eval_quote_attr anchors wants fuel d attr cite) (J (W w) [] e X).
  Proof.
    intros TA TC V. unfold eval_quote_attr. destruct attr as [a|], cite as [ci|]; cbn [some flag Nat.b2n].
    - apply act_cons with (J (W w) [] e (b "cite" :: b "footer" :: X)); [|apply act_one].
      + step_J ltac:(apply mv_attribution). eapply act_cons; [now apply texts_J|]. step_J ltac:(apply mv_attribution1'). stop.
      + step_J ltac:(apply mv_cite1). eapply act_cons; [now apply texts_J|]. step_J ltac:(apply mv_cite'). stop.
    - apply act_cons with (J (W w) [] e X); [|apply act_one, act_skip].
      step_J ltac:(apply mv_attribution). eapply act_cons; [now apply texts_J|]. step_J ltac:(apply mv_attribution0'). stop.
    - eapply act_cons; [apply act_skip|]. apply act_one. unfold att_stack. destruct (is_quoted_paragraph D d); [discriminate (V eq_refl)|].
      step_J ltac:(apply mv_cite0). eapply act_cons; [now apply texts_J|]. step_J ltac:(apply mv_cite'). stop.
    - eapply act_cons; [apply act_skip|apply act_one]. unfold att_stack. destruct (is_quoted_paragraph D d); [discriminate (V eq_refl)|]. apply act_skip.
  Qed.

  (** ** Documents *)
  Lemma in_scene t p e : scene t p e -> scene t (in_preamble p) e.
  Proof. exact (fun H => H). Qed.
  Lemma content_go t p e X has c : scene t p e -> p_pre p = false -> content_fits block_go c -> content_fine5 D (fine5 D) p c ->
    act (J (W true) [] e X) (eval_doc_content anchors wants fuel evb t has c) (J (W false) [] e X).
  Proof.
    intros T NP B F. unfold eval_doc_content.
    assert (Lo : forall Z h, J (W true) [] e Z h -> JW p e Z h) by (intros Z h; apply J_weak; auto).
    assert (Lo' : forall Z h, JW p e Z h -> J (W false) [] e Z h) by (intros Z h; apply J_weak; discriminate).
    assert (KC : tri (J (W true) [] e X) enter_content5 (J (W true) [] e (if v_em e then X else b "div" :: X))).
    { intros h h' (f & m & cl & x & H & K) E. exists f, m, cl, x. split; [|exact K]. assert (SE : settles Keep enter_content5) by (unfold enter_content5; sek).
      pose proof (tri_AP (W true) _ _ _ _ _ _ _ _ _ _ _ _ _ (steady_W true) (tri_content5 [] X f m cl x) SE h h' H E) as H'. unfold content_open in H'. destruct K as (_ & _ & <- & _). exact H'. }
    assert (KC' : tri (JW p e (if v_em e then X else b "div" :: X)) exit_content5 (J (W false) [] e X)).
    { intros h h' (f & m & cl & x & [H _] & K) E. exists f, m, cl, x. split; [|exact K]. split; [|discriminate]. refine (tri_content5' [] X f m cl x h h' _ E). unfold content_open. destruct K as (_ & _ & -> & _). exact H. }
    eapply act_cons; [ev; apply KC|]. eapply act_cons; [|eapply act_cons; [ev; apply KC'|stop]]. clear KC KC'. set (Y := if v_em e then X else _). clearbody Y.
    assert (S : forall q Z l, scene t q e -> every (section_fits block_go) l -> every (section_fine5 D (fine5 D) q) l -> act (JW q e Z) (each (eval_section anchors wants fuel evb t) l) (JW q e Z)).
    { intros q Z l Tq Bl Fl. apply act_each. intros s I. apply section_go; [exact Tq|exact (proj1 (every_in _ _) Bl s I)|exact (proj1 (every_in _ _) Fl s I)]. }
    destruct c as [l|pre secs|pre op parts cl]; cbn [content_fits content_fine5] in *.
    - eapply act_pre; [apply Lo|]. now apply blocks_J.
    - destruct B as [B1 B2], F as [F1 F2]. apply act_cons with (JW p e Y); [|apply act_one; now apply S]. destruct pre as [l|]; [|eapply act_pre; [apply Lo|apply act_skip]]. eapply act_post; [apply Lo|].
      step_J ltac:(apply mv_preamble). eapply act_cons; [apply (blocks_J t (in_preamble p)); auto|]. apply preamble_tail. apply T.
    - destruct B as (B1 & B2 & B3 & B4), F as (F1 & F2 & F3 & F4). apply act_cons with (JW p e Y); [|apply act_cons with (JW p e Y); [|apply act_one; now apply S]].
      + destruct pre as [l|]; cbn [some] in F2; [|eapply act_pre; [apply Lo|now apply S]]. eapply act_post; [apply Lo|].
        step_J ltac:(apply mv_preamble). eapply act_cons; [apply (blocks_J t (in_preamble p)); auto|]. eapply act_cons; [apply (S (in_preamble p)); auto|]. apply preamble_tail. apply T.
      + apply act_each. intros x I. apply part_go; [exact T|exact (proj1 (every_in _ _) B3 x I)|exact (proj1 (every_in _ _) F3 x I)].
  Qed.
  Lemma document_go p doc c : p_pre p = false -> p_inline p = is_inline D doc -> (p_in_cell p = false -> alone (doc_meta D (d_d doc)) false = alone (doc_meta D (d_d doc)) c) ->
    document_fits block_go doc -> document_fine5 D (fine5 D) p doc ->
    act (AP (W true) (Out, []) [] no_flags empty_meta c 0) (visit_document anchors wants fuel evb doc) (fun h => closed (html h) /\ Forall (fun n => closed (snd n)) (notes h)).
  Proof.
    intros PP PI PL B (F1 & F2 & F4 & F5 & F6 & F7 & F8). unfold visit_document. set (m := doc_meta D (d_d doc)) in *.
    set (e := Env5 (m_doctype m) (m_embedded m) (alone m c) (p_in_cell p)).
    pose proof (insert_keeps (n_meta D (d_d doc)) "outfilesuffix" (AStr ".html")) as [KD KE]. fold (doc_meta D (d_d doc)) in KD, KE. fold m in KD, KE.
    assert (T : scene (d_toc doc) p e). { split; [now split|]. split; [|reflexivity]. cbn [v_dt e]. rewrite KD. now rewrite PI. }
    assert (K0 : okJ5 e no_flags m c). { repeat (split; [reflexivity|]). exact PL. }
    assert (N0 : forall w, true = true -> [] = @nil bytes /\ W w []) by (intros w _; split; [reflexivity|apply W_nil]).
    assert (I0 : forall w o X f m c x, words_opt D true o -> act (AP (W w) (Out, X) [] f m c x) (eval_docinfo anchors wants fuel doc o) (AP (W w) (Out, X) [] f m c x)).
    { intros w o X f m0 c0 x To. unfold eval_docinfo. destruct (embedded doc); [apply act_skip|]. destruct o as [l|]; [apply words_AP with true; [exact To|apply steady_W|apply N0]|apply act_skip]. }
    eapply act_cons; [ev; apply tri_AP; [apply steady_W|apply tri_document5|unfold enter_document5; sek]|]. fold m. eapply act_cons; [now apply I0|].
    eapply act_cons; [ev; apply tri_AP; [apply steady_W|apply tri_body5|unfold enter_body5; sek]|]. eapply act_cons; [now apply I0|].
    eapply act_cons; [ev; apply tri_AP; [apply steady_W|apply tri_header5|unfold enter_header5; sek]|].
    set (HO := header_open5 m (body_open m c [])).
    apply act_cons with (AP (W true) (Out, HO) [] no_flags m c 0).
    { destruct (d_title doc) as [l|]; [|apply act_skip]. apply act_cons with (AP (W (render_doc_title m)) (Out, title_html m HO) (title_alt m HO) no_flags m c 0).
      { ev. intros h h' [H N] E. split; [exact (tri_doc_title debug HO no_flags m c 0 h h' H E)|]. intros R. unfold enter_document_title, look in E. destruct H as (_ & _ & _ & _ & H & _). rewrite H, R in E.
        injection E as <-. exact (N eq_refl). }
      eapply act_cons; [apply words_AP with false; [exact F4|apply steady_W|discriminate]|]. eapply act_cons; [|stop].
      ev. intros h h' [H N] E. split; [exact (tri_doc_title' HO no_flags m c 0 h h' H E)|]. intros _. unfold exit_document_title, look in E. destruct H as (_ & _ & _ & _ & H & _). rewrite H in E.
      destruct (render_doc_title m); injection E as <-; [exact (N eq_refl)|reflexivity]. }
    unfold HO. clear HO. eapply act_cons; [ev; apply tri_AP; [apply steady_W|apply tri_header5'|unfold exit_header5; sek]|]. set (BO := if v_sa e then b "body" :: b "html" :: [] else []).
    assert (EB : forall m' c', alone m' c' = v_sa e -> body_open m' c' [] = BO) by (intros m' c' V; unfold body_open, BO; now rewrite V).
    apply act_cons with (J (W true) [] e BO).
    { eapply act_pre; [|apply toc_at_J; [apply T|reflexivity]]. intros h H. rewrite (EB m c eq_refl) in H. now exists no_flags, m, c, 0. }
    eapply act_cons; [apply content_go with p; auto|].
    apply act_pre with (fun h => exists v : flags * meta * bool * nat, AP (W false) (Out, body_open (snd (fst (fst v))) (snd (fst v)) []) [] (fst (fst (fst v))) (snd (fst (fst v))) (snd (fst v)) (snd v) h).
    { intros h (f & m' & c' & x & H & K). exists (f, m', c', x). cbn [fst snd]. rewrite EB; [exact H|]. apply K. }
    apply (act_ex D debug (no_flags, empty_meta, false, 0)). intros [[[f m'] c'] x]. cbn [fst snd].
    eapply act_cons; [ev; apply tri_AP; [apply steady_W|apply tri_footer5|unfold enter_footer5; sek]|]. eapply act_cons; [ev; apply tri_AP; [apply steady_W|apply tri_footer5'|unfold exit_footer5; sek]|].
    eapply act_cons; [now apply I0|]. eapply act_cons; [ev; apply tri_AP; [apply steady_W|apply tri_body5'|unfold exit_body5; sek]|].
    eapply act_cons; [|stop]. ev. intros h h' [H _] E. injection E as <-. destruct H as (H1 & _ & H3 & _). now split.
  Qed.

  (** ** Cells and tables *)
  Lemma call_cell l s : call5 D debug (Cell_ l) s =
    match calls5 D debug l (set_cell true (set_notes (notes s) fresh5)) with Ret s' => Ret (set_notes (notes s') (set_html (html s ++ html s') (set_cell false s))) | Panic => Panic end.
  Proof.
    cbn [call5].
    match goal with |- match ?g l ?s0 with _ => _ end = _ => assert (E : forall l s, g l s = calls5 D debug l s) end.
    { clear. induction l as [|e l IH]; intros s; [reflexivity|]. cbn. unfold bind. destruct (call5 D debug e s); [apply IH|reflexivity]. }
    now rewrite E.
  Qed.
  Lemma cell_go t p e sect X c : scene t p e -> cell_fits block_go c -> cell_fine5 D (fine5 D) p sect c -> act (JW p e X) (eval_cell anchors wants fuel evb t sect c) (JW p e X).
  Proof.
    intros T B [L F]. unfold eval_cell. unfold cell_label in L. unfold cell_fits in B. destruct (c_content c) as [l|l|doc] eqn:Ec.
    - destruct F as [F0 F]. assert (NL : heads D (c_d c) sect = true -> n_cell D (c_d c) <> CsLiteral) by (intros _ N; rewrite N in L; exact L).
      step_J ltac:(apply mv_cell). eapply act_cons; [|step_J ltac:(apply mv_cell'; exact NL); stop]. apply act_each. intros q I.
      step_J ltac:(apply mv_cell_paragraph). eapply act_cons; [apply texts_J; exact (proj1 (every_in _ _) F q I)|]. step_J ltac:(apply mv_cell_paragraph'; exact F0). stop.
    - destruct F as [F1 F2]. assert (NL : heads D (c_d c) sect = true -> n_cell D (c_d c) <> CsLiteral). { intros H _. unfold heads in H. apply Nat.eqb_neq in F1. rewrite F1 in H. destruct (n_cell D (c_d c)); discriminate H || contradiction L. }
      step_J ltac:(apply mv_cell). eapply act_cons; [now apply texts_J|]. step_J ltac:(apply mv_cell'; exact NL). stop.
    - destruct F as [F2 F3]. assert (NL : heads D (c_d c) sect = true -> n_cell D (c_d c) <> CsLiteral) by (intros _ N; rewrite N in L; exact L).
      step_J ltac:(apply mv_cell). eapply act_cons; [|step_J ltac:(apply mv_cell'; exact NL); stop].
      intros e0 e1 E. destruct (visit_document anchors wants fuel evb doc (St [] false)) as [s'| |] eqn:Ev; try discriminate E. injection E as <-. exists [Cell_ (out s')]. split; [reflexivity|].
      set (q := Place5 false _ _) in F3. pose proof (insert_keeps (n_meta D (d_d doc)) "outfilesuffix" (AStr ".html")) as [KD KE]. fold (doc_meta D (d_d doc)) in KD, KE.
      assert (G : act (AP (W true) (Out, []) [] no_flags empty_meta true 0) (visit_document anchors wants fuel evb doc) (fun h => closed (html h) /\ Forall (fun n => closed (snd n)) (notes h))).
      { apply document_go with q; [reflexivity|reflexivity| |exact B|exact F3]. unfold q, is_inline. cbn [p_in_cell]. intros N. unfold alone. rewrite KD, KE. destruct (doctype_eqb _ _), (m_embedded _); cbn in *; congruence. }
      destruct (G _ _ Ev) as (l & O & V). cbn in O. rewrite O. clear O G.
      intros h h' (f & m & cl & x & [H N] & K) C. cbn [calls5] in C. unfold bind in C. rewrite call_cell in C. destruct (calls5 D debug l _) as [s1|] eqn:C1; [|discriminate C]. injection C as <-.
      assert (S : closed (html s1) /\ Forall (fun n => closed (snd n)) (notes s1)).
      { refine (V _ _ _ C1). split; [|intros _; reflexivity]. destruct H as (_ & _ & H & _). repeat (split; [first [exact H|reflexivity]|]); try exact H; reflexivity. }
      exists f, m, false, x. split; [split; [|exact N]|].
      + destruct S as [S1 S2], H as (H1 & H2 & H3 & H4 & H5 & H6 & H7). split; [|repeat (split; [assumption || reflexivity|]); assumption || reflexivity]. cbn. rewrite pscan_app, H1. exact (pscan_deeper _ _ (Out, []) (Out, []) S1).
      + destruct K as (K1 & K2 & K3 & K4 & K5). repeat (split; [assumption|]). assert (V' : v_cell e = false) by (destruct T as (_ & _ & ->); exact F2). split; [auto|exact K5].
  Qed.
  Lemma row_go t p e sect X r : scene t p e -> row_fits block_go r -> row_fine5 D (fine5 D) p sect r -> act (JW p e X) (eval_row anchors wants fuel evb t sect r) (JW p e X).
  Proof.
    intros T B F. unfold eval_row. apply act_cons with (JW p e (b "tr" :: X)); [evJ; apply mv_put_; lit|]. apply act_cons with (JW p e (b "tr" :: X)); [|apply act_cons with (JW p e X); [evJ; apply mv_put_; lit|stop]].
    apply act_each. intros c I. apply cell_go; [exact T|exact (proj1 (every_in _ _) B c I)|exact (proj1 (every_in _ _) F c I)].
  Qed.
  Lemma table_go t p e X d tb title pt : scene t p e -> n_title D d = some title -> pt = false -> table_fits block_go tb -> table_fine5 D (fine5 D) p tb ->
    act (J (W (p_pre p && (negb (@some (list inline) title) || pt))) [] e X) (eval_table anchors wants fuel evb t d tb) (JW p e X).
  Proof.
    intros T Ti Pt (B1 & B2 & B3) (F1 & F2 & F3). unfold eval_table. eapply act_cons; [ev; eapply (tri_tt title pt d _ _ _ _ _ Ti); [apply mv_table|exact Pt]|]. set (Y := b "table" :: by_tag D "figure" d :: X).
    assert (O : forall k o, match o with Some r => row_fits block_go r | None => True end -> match o with Some r => row_fine5 D (fine5 D) p k r | None => True end ->
      act (JW p e Y) (match o with Some r => seq [enter "table_section" [k]; eval_row anchors wants fuel evb t k r; exit "table_section" [k]] | None => skip end) (JW p e Y)).
    { intros k [r|] Br Fr; [|apply act_skip]. step_J ltac:(apply mv_section_tag). eapply act_cons; [now apply row_go|]. step_J ltac:(apply mv_section_tag'). stop. }
    eapply act_cons; [now apply O|]. eapply act_cons; [|eapply act_cons; [now apply O|]; step_J ltac:(apply mv_table'); stop].
    destruct (body_rows tb) as [|r0 rows0] eqn:Er; [apply act_skip|]. rewrite <- Er in *. clear Er r0 rows0. step_J ltac:(apply mv_section_tag). eapply act_cons; [|step_J ltac:(apply mv_section_tag'); stop].
    apply act_each. intros r I. apply row_go; [exact T|exact (proj1 (every_in _ _) B2 r I)|exact (proj1 (every_in _ _) F2 r I)].
  Qed.

  (** ** Blocks *)
  Lemma mv_break d a X : mv Keep a X (put (open_element D "hr" [] d)) X.
  Proof. mk. Qed.
  (** with something known that the state does not show *)
  Lemma act_params {V} (v0 : V) (R : V -> Prop) (P Q : V -> hst -> Prop) f : (forall v, act (P v) f (Q v)) -> act (fun h => exists v, P v h /\ R v) f (fun h => exists v, Q v h /\ R v).
  Proof.
    intros H e0 e1 E. destruct (H v0 e0 e1 E) as (l & O & _). exists l. split; [exact O|]. intros h h' (v & H' & K) C. exists v. split; [|exact K]. destruct (H v e0 e1 E) as (l' & O' & T).
    rewrite O in O'. apply app_inv_head in O'. subst l'. exact (T h h' H' C).
  Qed.
  Record params := Params { q_v : bool; q_f : flags; q_m : meta; q_c : bool; q_x : nat }.
  Definition params0 : params := Params false no_flags empty_meta false 0.
  Lemma content_params w (S : params -> list bytes) (F : params -> flags) (R : params -> Prop) d l : words D true l -> is_verse D d = false ->
    let P h := exists v, AP (W w) (Out, S v) [] (F v) (q_m v) (q_c v) (q_x v) h /\ R v in
    act P (seq [enter "simple_block_content" [d]; inlines anchors wants fuel l; exit "simple_block_content" [d]]) P.
  Proof.
    intros T NV P. unfold P. apply (act_params params0 R (fun v => AP (W w) (Out, S v) [] (F v) (q_m v) (q_c v) (q_x v)) (fun v => AP (W w) (Out, S v) [] (F v) (q_m v) (q_c v) (q_x v))). intros v.
    eapply act_cons; [ev; apply mv_AP; [apply steady_W|apply mv_simple]|]. eapply act_cons; [apply words_AP with true; [exact T|apply steady_W|intros _; split; [reflexivity|apply W_nil]]|].
    eapply act_cons; [ev; apply mv_AP; [apply steady_W|apply mv_simple'; exact NV]|stop].
  Qed.
  Lemma five P Q f1 f2 f3 f4 f5 R S : act P f1 R -> act R (seq [f2; f3; f4]) S -> act S f5 Q -> act P (seq [f1; f2; f3; f4; f5]) Q.
  Proof. intros H1 H2 H3. eapply act_cons; [exact H1|]. apply (act_app R S Q [f2; f3; f4] [f5]); [exact H2|]. eapply act_cons; [exact H3|stop]. Qed.
  Lemma all_blocks : forall k, block_go k.
  Proof.
    induction k as [d title attr cite cx body B] using block_rect'. intros t p e X ed T [[L1 [L2 L3]] (F1 & F2 & F3 & F4 & F5 & F6)] C. cbn [eval_block].
    eapply act_cons; [now apply title_go|apply act_one].
    assert (IV : is_verse D d = match cx with XVerse => true | _ => false end) by (unfold is_verse; now rewrite L1).
    assert (IQ : is_quote D d = match cx with XBlockQuote => true | _ => false end) by (unfold is_quote; now rewrite L1).
    assert (IP : is_passthrough D d = match cx with XPassthrough => true | _ => false end) by (unfold is_passthrough; now rewrite L1).
    assert (II : is_quoted_paragraph D d = match cx with XQuotedParagraph => true | _ => false end) by (unfold is_quoted_paragraph; now rewrite L1).
    set (w1 := p_pre p && (negb (some title) || is_passthrough D d)).
    assert (Un : titled p cx = false -> forall Z h, J (W w1) [] e Z h -> JW p e Z h).
    { intros U Z h. apply J_weak. intros Q. unfold w1. rewrite Q. destruct (some title) eqn:S; [|reflexivity]. rewrite (F4 Q eq_refl) in U. discriminate U. }
    assert (TT : forall c Y Z, is_passthrough D d = false -> mv (tt5 D d) [] Y c Z -> tri (J (W w1) [] e Y) c (JW p e Z)) by (intros c Y Z NP M; now apply tri_tt with d).
    assert (title_W : forall h h' c, settles (tt5 D d) c -> c h = Ret h' -> W (p_pre p && (negb (some title) || is_passthrough D d)) (alt h) -> is_passthrough D d = false -> W (p_pre p) (alt h')).
    { intros h h' c S E N NP. specialize (S h h' E). unfold tt5 in S. rewrite L2 in S. rewrite NP, orb_false_r in N. destruct title as [l|]; cbn [some negb] in *; [rewrite S; apply W_nil|].
      rewrite andb_true_r in N. destruct S as [->| ->]; [exact N|apply W_nil]. }
    assert (SC : forall l Z, words D true l -> is_verse D d = false ->
      act (JW p e Z) (seq [enter "simple_block_content" [d]; inlines anchors wants fuel l; exit "simple_block_content" [d]]) (JW p e Z)).
    { intros l Z Tl NV. step_J ltac:(apply mv_simple). eapply act_cons; [now apply texts_J|]. step_J ltac:(apply mv_simple'; exact NV). stop. }
    eapply act_weak with (P' := if is_callouts (Block d title attr cite cx body) then JE true w1 e X else J (W w1) [] e X)
      (Q' := if before_callouts (Block d title attr cite cx body) then JE true (p_pre p) e X else JW p e X).
    { intros h H. destruct (is_callouts _); [now rewrite (C eq_refl) in H|exact (JE_out _ _ _ _ _ H)]. }
    { intros h H. destruct (before_callouts _); [exact H|exact (JE_of _ _ _ _ H)]. }
    destruct cx, body as [l|l|en|en|en l| |tb|sc|en|qu qa qc|v n items]; try apply act_crash; cbn [body_all] in B; cbn [is_callouts before_callouts].
    all: lazymatch goal with
      | |- act _ (seq [enter ?n _; enter "compound_block_content" _; _; _; exit ?n _]) _ =>
          lazymatch n with "quote_block" => idtac | _ =>
          eapply act_cons; [ev; apply TT; [exact IP|lazymatch n with "sidebar_block" => apply mv_sidebar | "open_block" => apply mv_open | "example_block" => apply mv_example | "admonition_block" => apply mv_admonition end]|];
          eapply act_cons; [ev; apply tri_nothing|]; eapply act_cons; [now apply blocks_J|]; eapply act_cons; [ev; apply tri_nothing|];
          eapply act_cons; [evJ; lazymatch n with "sidebar_block" => apply mv_sidebar' | "open_block" => apply mv_open' | "example_block" => apply mv_example' | "admonition_block" => apply mv_admonition' end|stop] end
      | |- act _ (seq [enter ?n _; enter "simple_block_content" _; _; _; exit ?n _]) _ =>
          lazymatch n with
          | "sidebar_block" => eapply five; [ev; apply TT; [exact IP|apply mv_sidebar]|now apply SC|evJ; apply mv_sidebar']
          | "example_block" => eapply five; [ev; apply TT; [exact IP|apply mv_example]|now apply SC|evJ; apply mv_example']
          | _ => idtac
          end
      | |- act _ (visit "thematic_break" _ _) _ => eapply act_pre; [now apply Un|]; evJ; apply mv_break
      | |- act _ (visit "page_break" _ _) _ => eapply act_pre; [now apply Un|]; evJ; apply mv_put_; lit
      | |- act _ (visit "audio_macro" _ _) _ => ev; eapply (tri_tt title _ en _ _ _ _ _ L3); [apply mv_audio|exact IP]
      | |- act _ (visit "video_macro" _ _) _ => ev; eapply (tri_tt title _ en _ _ _ _ _ L3); [apply mv_video|exact IP]
      | |- act _ (eval_toc_at _ _ _ _ _) _ => eapply act_pre; [now apply Un|]; apply toc_at_J; [apply T|reflexivity]
      | |- act _ skip _ => eapply act_pre; [now apply Un|]; apply act_skip
      | |- act _ (eval_section _ _ _ _ _ _) _ => eapply act_pre; [now apply Un|]; now apply section_go
      | |- act _ (eval_table _ _ _ _ _ _ _) _ => now apply table_go
      | |- _ => idtac
      end.
    - eapply act_cons; [ev; apply TT; [exact IP|apply mv_admonition]|]. eapply act_cons; [now apply texts_J|]. step_J ltac:(apply mv_admonition'). stop.
    - assert (Q : forall Z, att_stack D d Z = Z) by (intros Z; unfold att_stack; now rewrite II).
      eapply act_cons; [ev; apply TT; [exact IP|apply mv_quote]|]. eapply act_cons; [ev; apply tri_nothing|]. eapply act_cons; [now apply blocks_J|]. eapply act_cons; [ev; apply tri_nothing|].
      apply act_cons with (JW p e (b "blockquote" :: by_tag D "section" d :: X)); [|step_J ltac:(apply mv_quote'); stop].
      pose proof (quote_go (p_pre p) e (b "blockquote" :: by_tag D "section" d :: X) d attr cite F2 F3) as G. rewrite Q in G. apply G. rewrite II. discriminate.
    - assert (Q : forall Z, att_stack D d Z = Z) by (intros Z; unfold att_stack; now rewrite II).
      eapply act_cons; [ev; apply TT; [exact IP|apply mv_quote]|]. step_J ltac:(apply mv_simple). eapply act_cons; [now apply texts_J|]. step_J ltac:(apply mv_simple'; exact IV).
      apply act_cons with (JW p e (b "blockquote" :: by_tag D "section" d :: X)); [|step_J ltac:(apply mv_quote'); stop].
      pose proof (quote_go (p_pre p) e (b "blockquote" :: by_tag D "section" d :: X) d attr cite F2 F3) as G. rewrite Q in G. apply G. rewrite II. discriminate.
    - apply act_cons with (JW p e (b "ol" :: b "div" :: X)).
      { ev. intros h h' [(f & m & cl & x & [H N] & K) En] E. apply (Un eq_refl). exists f, m, cl, x. split; [|exact K].
        split; [exact (tri_callouts5 D d X [] f m cl x h h' (conj H (En eq_refl)) E)|]. destruct (se_callouts D d h h' E) as [->|[_ ->]]; [exact N|apply W_nil]. }
      apply act_cons with (JW p e (b "ol" :: b "div" :: X)).
      { apply act_each. intros i I. apply item_go; [exact T|apply (proj1 (every_in _ _) B i I)|exact (proj1 (every_in _ _) F6 i I)]. }
      apply act_post with (JE true (p_pre p) e X); [intros h H; destruct (negb _); [exact H|exact (JE_out _ _ _ _ _ H)]|]. eapply act_cons; [|stop].
      ev. intros h h' (f & m & cl & x & [H N] & K) E. split; [|intros _; exact (ends_callouts X [] f m cl x h h' H E)]. exists f, m, cl, x. split; [|exact K]. exact (mv_AP _ _ _ _ _ f m cl x (steady_W _) (mv_callouts' [] X) h h' (conj H N) E).
    - apply act_cons with (JW p e (list_stack D "dl" d n X)).
      { ev. intros h h' (f & m & cl & x & [H N] & K) E. exists (dlist_flags5 D d f), m, cl, x. split; [split; [exact (tri_dlist5 D d n X f m cl x h h' H E)|]|].
        - exact (title_W h h' _ (se_dlist D d n) E N IP).
        - destruct K as (K1 & K2). split; [unfold dlist_flags5; destruct (is_glossary D d); exact K1|exact K2]. }
      eapply act_cons. { apply act_each. intros i I. apply description_go; [exact T|exact (proj1 (every_in _ _) B i I)|exact (proj1 (every_in _ _) F6 i I)]. }
      eapply act_cons; [|stop]. ev. eapply (tri_Jf _ _ e _ _ _ (with_glossary false)); [sw|reflexivity|intros; apply tri_dlist5'|apply se_dlist'].
    - eapply act_pre; [now apply Un|]. step_J ltac:(apply mv_discrete). eapply act_cons; [now apply texts_J|]. step_J ltac:(apply mv_discrete'). stop.
    - eapply act_pre; [now apply Un|]. ev. intros h h' (f & m & cl & x & H & K) E. eexists f, _, cl, x. split; [exact (tri_AP _ _ _ _ _ _ _ _ _ _ _ _ _ _ (steady_W _) (tri_decl5 D en _ _ f m cl x) (se_decl D en) h h' H E)|].
      pose proof (insert_keeps m (fst (n_decl D en)) (snd (n_decl D en))) as [I1 I2]. unfold okJ5, alone in *. rewrite I1, I2. exact K.
    - apply act_cons with (J (W w1) [] e (b (figure_tag D en d) :: X)); [evJ; apply mv_image_block; exact F6|]. eapply act_cons; [ev; apply TT; [exact IP|apply mv_image_block']|stop].
    - eapply five; [|apply (content_params (p_pre p) (fun v => open_listing D (q_v v) d X) (fun v => with_source (q_v v) (q_f v)) (fun v => okJ5 e (q_f v) (q_m v) (q_c v))); [exact F6|exact IV]|].
      + ev. intros h h' (f & m & cl & x & [H N] & K) E. destruct (tri_listing5 D d X f m cl x (proj1 K) h h' H E) as (v & H'). exists (Params v f m cl x). split; [|exact K]. split; [exact H'|].
        exact (title_W h h' _ (se_listing D d) E N IP).
      + ev. intros h h' ([v f m cl x] & [H N] & K) E. cbn [q_v q_f q_m q_c q_x] in *.
        assert (G : JW p e X h').
        { exists (with_source false f), m, cl, x. split; [exact (tri_AP _ _ _ _ _ _ _ _ _ _ _ _ _ _ (steady_W _) (tri_listing5' D v d X f m cl x) (se_listing' D d) h h' (conj H N) E)|].
          destruct K as (K1 & K2). split; [reflexivity|exact K2]. }
        destruct title as [l0|]; cbn [some negb]; [exact G|]. split; [exact G|]. intros _. exact (ends_listing D v d X f m cl x L2 h h' H E).
    - eapply five; [ev; apply TT; [exact IP|apply mv_literal]|now apply SC|]. ev. intros h h' H E. pose proof (tri_J _ _ e _ _ _ (steady_W _) (mv_literal' D d [] X) h h' H E) as G.
      destruct title as [l0|]; cbn [some negb]; [exact G|]. split; [exact G|]. intros _. destruct H as (f & m & cl & x & [H _] & _). exact (ends_literal D d X [] f m cl x L2 h h' H E).
    - eapply act_cons; [ev; apply TT; [exact IP|apply mv_ol]|]. eapply act_cons; [|step_J ltac:(apply mv_ol'); stop]. apply act_each. intros i I. apply item_go; [exact T|apply (proj1 (every_in _ _) B i I)|exact (proj1 (every_in _ _) F6 i I)].
    - eapply five; [|apply (content_params (p_pre p) (fun v => para5 D d (q_f v) (q_m v) X) q_f (fun v => okJ5 e (q_f v) (q_m v) (q_c v))); [exact F6|exact IV]|].
      + ev. intros h h' (f & m & cl & x & [H N] & K) E. exists (Params false f m cl x). split; [|exact K]. split; [exact (tri_paragraph5 D d X f m cl x h h' H E)|].
        unfold w1 in N. rewrite IP, orb_false_r in N. destruct (some title) eqn:St; cbn [negb] in N.
        * destruct (p_pre p) eqn:Pp; [|discriminate]. assert (NI : doctype_eqb (m_doctype (dm h)) Inline = false); [|now rewrite (clear_paragraph D d L2 h h' NI E)]. destruct H as (_ & _ & _ & _ & Hm & _). rewrite Hm. destruct K as (_ & -> & _).
          destruct T as (_ & Ti & _). rewrite Ti. specialize (F4 eq_refl eq_refl). cbn [titled] in F4. now apply negb_true_iff in F4.
        * rewrite andb_true_r in N. destruct (se_paragraph D d h h' E) as [->| ->]; [exact N|apply W_nil].
      + ev. intros h h' ([v f m cl x] & [H N] & K) E. cbn [q_v q_f q_m q_c q_x] in *. eexists _, m, cl, x. split; [exact (tri_AP _ _ _ _ _ _ _ _ _ _ _ _ _ _ (steady_W _) (tri_paragraph5' D d X f m cl x) (se_paragraph' D d) h h' (conj H N) E)|].
        destruct K as (K1 & K2). split; [destruct (doctype_eqb _ _); exact K1|exact K2].
    - eapply act_pre with (P' := JW p e X). { intros h. apply J_weak. intros Q. unfold w1. now rewrite Q, IP, orb_true_r. }
      eapply five; [ev; apply tri_nothing|now apply SC|ev; apply tri_nothing].
    - eapply act_cons; [ev; apply TT; [exact IP|apply mv_quoted_paragraph]|]. destruct F6 as (F6 & F7 & F8). eapply act_cons; [now apply texts_J|].
      apply act_cons with (JW p e (b "blockquote" :: b "div" :: X)); [|step_J ltac:(apply mv_quoted_paragraph'); stop].
      pose proof (quote_go (p_pre p) e (b "blockquote" :: b "div" :: X) d (Some qa) qc F7 F8 (fun _ => eq_refl)) as G. unfold att_stack in G. rewrite II in G. exact G.
    - eapply act_cons; [ev; apply TT; [exact IP|apply mv_ul]|]. eapply act_cons; [|step_J ltac:(apply mv_ul'); stop]. apply act_each. intros i I. apply item_go; [exact T|apply (proj1 (every_in _ _) B i I)|exact (proj1 (every_in _ _) F6 i I)].
    - assert (Q : forall Z, att_stack D d Z = Z) by (intros Z; unfold att_stack; now rewrite II). set (v := flag (some attr || some cite)). set (Y := if v =? 1 then b "blockquote" :: b "div" :: X else b "div" :: X).
      assert (NT : n_title D d = false) by (rewrite L2, (F5 eq_refl); reflexivity).
      eapply act_cons; [ev; apply TT; [exact IP|apply mv_verse]|]. fold Y. apply act_cons with (JW p e (b "pre" :: Y)).
      { evJ. replace (b "pre" :: Y) with (simple_stack D d (b "pre" :: Y)) at 2 by (unfold simple_stack; now rewrite IQ). apply mv_simple. }
      eapply act_cons; [now apply texts_J|]. step_J ltac:(apply mv_simple_verse'; [exact IQ|exact IV]).
      apply act_cons with (JW p e Y); [|step_J ltac:(apply mv_verse'; exact NT); stop]. pose proof (quote_go (p_pre p) e Y d attr cite F2 F3) as G. rewrite Q in G. apply G. rewrite II. discriminate.
  Qed.
  Lemma all_closed doc es ps : eval_document anchors wants fuel doc = Done es -> fine_document5 D doc -> output5 D debug (out es) = Ret ps -> closed ps.
  Proof.
    intros E F O. assert (G : act (AP (W true) (Out, []) [] no_flags empty_meta false 0) (visit_document anchors wants fuel evb doc) (fun h => closed (html h) /\ Forall (fun n => closed (snd n)) (notes h))).
    { eapply document_go; [| | |apply content_all_, all_blocks|exact F]; reflexivity. }
    destruct (G _ _ E) as (l & El & V). cbn in El. rewrite El in O. unfold output5 in O. destruct (calls5 D debug l fresh5) as [s|] eqn:C; [|discriminate O]. injection O as <-. apply (V fresh5 s); [|exact C].
    split; [|intros _; reflexivity]. repeat split. constructor.
  Qed.
End Blocks.
