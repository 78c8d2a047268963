(** When evaluation ends, and when it does not panic. *)
From Verif Require Import Base EvalModel EvalSpec EvalProofs.
Open Scope string_scope.
Open Scope list_scope.

(** ** Relations kept by everything that evaluation is built from *)
Definition cell_of (f : action) : action := fun s => match f (St [] false) with Done s' => emit (Cell_ (out s')) s | Crash => Crash | Loops => Loops end.
Section Kept.
  Context (anchors : anchor_table) (wants : list event -> bool) (n m : nat) (G : action -> action -> Prop) (crash_ok : Prop).
  Context (G_skip : G skip skip) (G_emit : forall e, G (emit e) (emit e)) (G_then : forall f f' g g', G f f' -> G g g' -> G (then_ f g) (then_ f' g'))
    (G_inline : forall i, G (eval_inline anchors wants n i) (eval_inline anchors wants m i)) (G_cell : forall f f', G f f' -> G (cell_of f) (cell_of f'))
    (G_crash : crash_ok -> G (fun _ => Crash) (fun _ => Crash)).
  Lemma G_each {A} (f f' : A -> action) l : every (fun a => G (f a) (f' a)) l -> G (each f l) (each f' l).
  Proof. induction l as [|a l IH]; cbn; [auto|]. intros [X Y]. auto. Qed.
  Lemma G_inlines l : G (inlines anchors wants n l) (inlines anchors wants m l).
  Proof. apply G_each. now apply every_all. Qed.
  Lemma G_inlines_opt o : G (inlines_opt anchors wants n o) (inlines_opt anchors wants m o).
  Proof. destruct o; [apply G_inlines|exact G_skip]. Qed.
  Ltac gw := repeat first [match goal with H : G ?f ?g |- G ?f ?g => exact H end | exact G_skip | apply G_inlines | apply G_inlines_opt | apply G_then | match goal with
    | |- G (enter _ _) _ => apply G_emit | |- G (exit _ _) _ => apply G_emit | |- G (visit _ _ _) _ => apply G_emit | |- G (emit _) _ => apply G_emit end
    | match goal with |- G (seq _) _ => cbn [seq] end ].
  Lemma G_toc_node t : G (eval_toc_node anchors wants n t) (eval_toc_node anchors wants m t).
  Proof.
    induction t as [d k t l H] using toc_rect'.
    pose proof (G_each _ _ _ H) as E. cbn [eval_toc_node]. destruct l as [|[? level ? ?] l]; gw.
  Qed.
  Lemma G_toc t p : G (eval_toc_at anchors wants n t p) (eval_toc_at anchors wants m t p).
  Proof.
    unfold eval_toc_at. destruct t as [[d l q]|]; [|gw]. cbn. destruct (_ && _); [|gw].
    assert (E : G (each (eval_toc_node anchors wants n) l) (each (eval_toc_node anchors wants m) l)) by (apply G_each, every_all; apply G_toc_node).
    unfold eval_toc_level. destruct l as [|[? level ? ?] l]; gw.
  Qed.
  Section Parts.
    Context {B : Type} (eb eb' : option toc -> B -> action) (fit : B -> Prop).
    Notation fits_ok p := (crash_ok \/ p).
    Notation ok := (fun b => forall t, fits_ok (fit b) -> G (eb t b) (eb' t b)).
    Lemma ok_each {A} (P Q : A -> Prop) (f f' : A -> action) l : (forall a, P a -> fits_ok (Q a) -> G (f a) (f' a)) -> every P l -> fits_ok (every Q l) -> G (each f l) (each f' l).
    Proof.
      intros H HP HQ. apply G_each. apply every_in. intros a I. apply H; [exact (proj1 (every_in P l) HP a I)|].
      destruct HQ as [C|HQ]; [now left|right; exact (proj1 (every_in Q l) HQ a I)].
    Qed.
    Lemma G_blocks t l : every ok l -> fits_ok (every fit l) -> G (each (eb t) l) (each (eb' t) l).
    Proof. apply ok_each. auto. Qed.
    Lemma G_section t s : section_fits ok s -> fits_ok (section_fits fit s) -> G (eval_section anchors wants n eb t s) (eval_section anchors wants m eb' t s).
    Proof. intros H F. pose proof (G_blocks t _ H F). unfold eval_section. gw. Qed.
    Lemma G_sections t l : every (section_fits ok) l -> fits_ok (every (section_fits fit) l) -> G (each (eval_section anchors wants n eb t) l) (each (eval_section anchors wants m eb' t) l).
    Proof. apply ok_each. intros a. apply G_section. Qed.
    Lemma G_part t p : part_fits ok p -> fits_ok (part_fits fit p) -> G (eval_book_part anchors wants n eb t p) (eval_book_part anchors wants m eb' t p).
    Proof.
      intros [H1 H2] F. assert (F1 : fits_ok (every_opt fit (p_intro p))) by (unfold part_fits in F; tauto).
      assert (F2 : fits_ok (every (section_fits fit) (p_sections p))) by (unfold part_fits in F; tauto).
      pose proof (G_sections t _ H2 F2). unfold eval_book_part. destruct (p_intro p) as [l|]; [pose proof (G_blocks t l H1 F1)|]; gw.
    Qed.
    Lemma G_item t v i : item_all ok i -> fits_ok (item_fits fit i) -> G (eval_item anchors wants n eb t v i) (eval_item anchors wants m eb' t v i).
    Proof. intros [H _] F. pose proof (G_blocks t _ H F). unfold eval_item. gw. Qed.
    Lemma G_terms d total l : forall k, G (eval_terms anchors wants n d total k l) (eval_terms anchors wants m d total k l).
    Proof. induction l as [|w l IH]; intros k; cbn [eval_terms]; [gw|]. specialize (IH (S k)). gw. Qed.
    Lemma G_description t i : item_all ok i -> fits_ok (description_fits fit i) -> G (eval_description anchors wants n eb t i) (eval_description anchors wants m eb' t i).
    Proof.
      intros [H1 H2] F. unfold description_fits in F. unfold eval_description. destruct (i_meta i) as [terms o|]; [|apply G_crash; tauto]. cbv zeta.
      assert (Bl : G (each (fun b => seq [enter "description_list_description_block" [i_d i]; eb t b; exit "description_list_description_block" [i_d i]]) (i_blocks i))
                     (each (fun b => seq [enter "description_list_description_block" [i_d i]; eb' t b; exit "description_list_description_block" [i_d i]]) (i_blocks i))).
      { eapply ok_each; [|exact H1|]. 2: { instantiate (1 := fit). tauto. } intros a Ha Fa. specialize (Ha t Fa). gw. }
      pose proof (G_terms (i_d i) (1 + length terms) terms 2) as Te.
      destruct o as [b|]; cbn [some orb].
      - assert (Hb : G (eb t b) (eb' t b)) by (apply H2; tauto). gw.
      - destruct (negb _); gw.
    Qed.
    Lemma G_quote_attr d attr cite : G (eval_quote_attr anchors wants n d attr cite) (eval_quote_attr anchors wants m d attr cite).
    Proof. unfold eval_quote_attr. destruct attr, cite; gw. Qed.
    Lemma G_content t has c : content_fits ok c -> fits_ok (content_fits fit c) -> G (eval_doc_content anchors wants n eb t has c) (eval_doc_content anchors wants m eb' t has c).
    Proof.
      intros H F. unfold eval_doc_content. pose proof (G_toc t [PPreamble]) as Ta. destruct c as [l|pre secs|pre op parts cl]; cbn [content_fits] in H, F.
      - pose proof (G_blocks t l H F). gw.
      - destruct H as [H1 H2]. assert (F1 : fits_ok (every_opt fit pre)) by tauto. assert (F2 : fits_ok (every (section_fits fit) secs)) by tauto.
        pose proof (G_sections t _ H2 F2). destruct pre as [l|]; [pose proof (G_blocks t l H1 F1)|]; gw.
      - destruct H as (H1 & H2 & H3 & H4). assert (F1 : fits_ok (every_opt fit pre)) by tauto. assert (F2 : fits_ok (every (section_fits fit) op)) by tauto.
        assert (F4 : fits_ok (every (section_fits fit) cl)) by tauto. assert (F3 : fits_ok (every (part_fits fit) parts)) by tauto.
        pose proof (G_sections t _ H2 F2). pose proof (G_sections t _ H4 F4).
        assert (Pa : G (each (eval_book_part anchors wants n eb t) parts) (each (eval_book_part anchors wants m eb' t) parts)) by (eapply ok_each; [|exact H3|exact F3]; intros a; apply G_part).
        destruct pre as [l|]; [pose proof (G_blocks t l H1 F1)|]; gw.
    Qed.
    Lemma G_document doc : document_fits ok doc -> fits_ok (document_fits fit doc) -> G (visit_document anchors wants n eb doc) (visit_document anchors wants m eb' doc).
    Proof.
      intros H F. pose proof (G_content (d_toc doc) (flag (some (d_title doc))) _ H F). pose proof (G_toc (d_toc doc) [PAuto; PLeft; PRight]).
      unfold visit_document, eval_docinfo. destruct (embedded doc), (d_title doc); gw.
    Qed.
    Lemma G_cell_ t k c : cell_fits ok c -> fits_ok (cell_fits fit c) -> G (eval_cell anchors wants n eb t k c) (eval_cell anchors wants m eb' t k c).
    Proof.
      unfold cell_fits, eval_cell. intros H F. destruct (c_content c) as [l|l|doc].
      - assert (P : G (each (fun p => seq [enter "cell_paragraph" [c_d c; k]; inlines anchors wants n p; exit "cell_paragraph" [c_d c; k]]) l)
                      (each (fun p => seq [enter "cell_paragraph" [c_d c; k]; inlines anchors wants m p; exit "cell_paragraph" [c_d c; k]]) l)) by (apply G_each, every_all; intros a; gw).
        gw.
      - gw.
      - pose proof (G_cell _ _ (G_document doc H F)) as D. unfold cell_of in D. gw.
    Qed.
    Lemma G_row t k r : row_fits ok r -> fits_ok (row_fits fit r) -> G (eval_row anchors wants n eb t k r) (eval_row anchors wants m eb' t k r).
    Proof.
      intros H F. assert (C : G (each (eval_cell anchors wants n eb t k) (cells r)) (each (eval_cell anchors wants m eb' t k) (cells r))) by
        (eapply ok_each; [|exact H|exact F]; intros a; apply G_cell_).
      unfold eval_row. gw.
    Qed.
    Lemma G_table t d tb : table_fits ok tb -> fits_ok (table_fits fit tb) -> G (eval_table anchors wants n eb t d tb) (eval_table anchors wants m eb' t d tb).
    Proof.
      intros (H1 & H2 & H3) F. unfold table_fits in F. unfold eval_table.
      assert (R : G (each (eval_row anchors wants n eb t 1) (body_rows tb)) (each (eval_row anchors wants m eb' t 1) (body_rows tb))) by
        (eapply ok_each; [|exact H2|]; [intros a; apply G_row|tauto]).
      destruct (header_row tb) as [h|]; [assert (Hh : G (eval_row anchors wants n eb t 0 h) (eval_row anchors wants m eb' t 0 h)) by (apply G_row; [exact H1|tauto])|];
      (destruct (footer_row tb) as [f|]; [assert (Hf : G (eval_row anchors wants n eb t 2 f) (eval_row anchors wants m eb' t 2 f)) by (apply G_row; [exact H3|tauto])|]);
      destruct (body_rows tb); gw.
    Qed.
  End Parts.
  Lemma G_block : forall b t, crash_ok \/ fits b -> G (eval_block anchors wants n t b) (eval_block anchors wants m t b).
  Proof.
    induction b as [d title attr cite cx body H] using block_rect'. intros t F.
    pose proof (G_quote_attr d attr cite) as Q. pose proof (G_toc t [PMacro]) as Ta.
    cbn [eval_block]. cbv zeta. cbn [seq]. apply G_then; [destruct title; gw|]. apply G_then; [|gw].
    destruct cx, body; cbn [body_all fits] in H, F; try (apply G_crash; tauto).
    all: try (apply (G_section _ _ fits); [exact H|exact F]). all: try (apply (G_table _ _ fits); [exact H|exact F]).
    all: gw.
    all: try (pose proof (G_blocks _ _ _ t _ H F); gw; fail).
    all: try (eapply ok_each; [|exact H|exact F]; intros a; first [apply G_item|apply G_description]; fail).
    destruct cite0; gw.
  Qed.
  Lemma G_doc doc : crash_ok \/ document_fits fits doc -> G (visit_document anchors wants n (eval_block anchors wants n) doc) (visit_document anchors wants m (eval_block anchors wants m) doc).
  Proof. intros F. apply (G_document _ _ fits); [|exact F]. apply content_all_. intros b t. apply G_block. Qed.
End Kept.

(** ** No panic *)
Definition safe (f f' : action) : Prop := forall s, f s <> Crash.
Lemma safe_skip : safe skip skip.
Proof. intros s. discriminate. Qed.
Lemma safe_emit e : safe (emit e) (emit e).
Proof. intros s. discriminate. Qed.
Lemma safe_then f f' g g' : safe f f' -> safe g g' -> safe (then_ f g) (then_ f' g').
Proof. intros F H s. unfold then_. specialize (F s). destruct (f s) as [s'| |]; [apply H|contradiction|discriminate]. Qed.
Lemma safe_each {A} (f : A -> action) l : every (fun a => safe (f a) (f a)) l -> safe (each f l) (each f l).
Proof. induction l as [|a l IH]; cbn; [intros _; apply safe_skip|]. intros [X Y]. apply safe_then; auto. Qed.
Ltac sw := repeat first [assumption | apply safe_skip | apply safe_emit | apply safe_then | match goal with |- safe (seq _) _ => cbn [seq] end | apply safe_each].
Lemma safe_ask wants f f' g g' : safe f f' -> safe g g' -> safe (ask wants f g) (ask wants f' g').
Proof. intros F H s. unfold ask. destruct (wants (out s)); [apply F|apply H]. Qed.
Lemma safe_inline anchors wants n : forall i, safe (eval_inline anchors wants n i) (eval_inline anchors wants n i).
Proof.
  induction n as [n IHn] using (well_founded_induction Wf_nat.lt_wf).
  induction i as [i K] using inline_rect'.
  destruct i as [k d l|l|t|call d|d l|d o|d o|target d o|d o|id|l|p s t|]; cbn [kids] in K.
  - rewrite span_eq. sw.
  - rewrite passthru_eq. sw.
  - destruct n; sw.
  - destruct n; sw.
  - rewrite quote_eq. sw.
  - rewrite footnote_eq. destruct o; cbn [each_opt]; sw.
  - rewrite link_eq. intros s. generalize (flag (resolving s)). intros b. revert s. destruct o as [l|].
    + change (safe (seq [enter "link_macro" [d; b; 1]; each (eval_inline anchors wants n) l; exit "link_macro" [d; b; 1]]) (seq [enter "link_macro" [d; b; 1]; each (eval_inline anchors wants n) l; exit "link_macro" [d; b; 1]])). sw.
    + change (safe (seq [enter "link_macro" [d; b; 0]; exit "link_macro" [d; b; 0]]) (seq [enter "link_macro" [d; b; 0]; exit "link_macro" [d; b; 0]])). sw.
  - rewrite xref_eq.
    assert (M : forall k, (forall b, safe (k b) (k b)) -> forall v, safe (replace_resolving v k) (replace_resolving v k)) by (intros k X v s; unfold replace_resolving; apply X).
    cbn [seq]. apply safe_then; [sw|]. apply safe_then; [|apply safe_then; [|sw] ]; apply M; [|intros; sw].
    intros b. cbv zeta. destruct b; [sw|]. destruct (text_of_xref anchors target o) as [l|] eqn:Et; [|sw].
    destruct (lookup anchors (get_id target)) as [a|] eqn:Ea.
    + destruct (match reftext a with Some [] => false | Some _ => true | None => negb (some o) end) eqn:Eb.
      * destruct n as [|f]; [intros s; discriminate|]. assert (X : every (fun i => safe (eval_inline anchors wants f i) (eval_inline anchors wants f i)) l) by (apply every_all; apply IHn; lia). sw.
      * assert (Eo : o = Some l) by (unfold text_of_xref in Et; rewrite Ea in Et; destruct (reftext a) as [[|y r]|]; [exact Et|discriminate Eb|destruct o; [exact Et|discriminate Eb] ]).
        subst o. sw.
    + assert (Eo : o = Some l) by (unfold text_of_xref in Et; rewrite Ea in Et; exact Et). subst o. sw.
  - rewrite mailto_eq. destruct o; cbn [each_opt]; sw.
  - destruct n; sw.
  - rewrite visible_eq. cbn [seq]. apply safe_then; [sw|]. apply safe_then; [|sw]. apply safe_ask; sw.
  - rewrite concealed_eq. destruct K as (Kp & Ks & Kt). cbv zeta. cbn [seq]. apply safe_then; [sw|]. apply safe_then; [|sw]. apply safe_ask; [|sw]. destruct s, t; sw.
  - destruct n; sw.
Qed.
Lemma safe_cell f f' : safe f f' -> safe (cell_of f) (cell_of f').
Proof. intros H s. unfold cell_of. specialize (H (St [] false)). destruct (f (St [] false)); [discriminate|contradiction|discriminate]. Qed.
Lemma no_crash anchors wants n doc : document_fits fits doc -> eval_document anchors wants n doc <> Crash.
Proof.
  intros F. apply (G_doc anchors wants n n safe False safe_skip safe_emit safe_then (safe_inline anchors wants n) safe_cell); [tauto|now right].
Qed.

(** ** More fuel changes nothing *)
Definition below (f f' : action) : Prop := forall s, f s = Loops \/ f s = f' s.
Lemma below_refl f : below f f.
Proof. intros s. now right. Qed.
Lemma below_then f f' g g' : below f f' -> below g g' -> below (then_ f g) (then_ f' g').
Proof. intros F H s. unfold then_. destruct (F s) as [->| ->]; [now left|]. destruct (f' s) as [s'| |]; [apply H|now right|now right]. Qed.
Lemma below_each {A} (f f' : A -> action) l : every (fun a => below (f a) (f' a)) l -> below (each f l) (each f' l).
Proof. induction l as [|a l IH]; cbn; [intros _; apply below_refl|]. intros [X Y]. apply below_then; auto. Qed.
Lemma below_ask wants f f' g g' : below f f' -> below g g' -> below (ask wants f g) (ask wants f' g').
Proof. intros F H s. unfold ask. destruct (wants (out s)); [apply F|apply H]. Qed.
Ltac bw := repeat first [apply below_refl | match goal with |- below (seq _) _ => cbn [seq] end | apply below_then | assumption | apply below_each].
Lemma below_inline anchors wants n : forall m, n <= m -> forall i, below (eval_inline anchors wants n i) (eval_inline anchors wants m i).
Proof.
  induction n as [n IHn] using (well_founded_induction Wf_nat.lt_wf). intros m Hm.
  induction i as [i K] using inline_rect'.
  destruct i as [k d l|l|t|call d|d l|d o|d o|target d o|d o|id|l|p s t|]; cbn [kids] in K.
  - rewrite !span_eq. bw.
  - rewrite !passthru_eq. bw.
  - destruct n, m; bw.
  - destruct n, m; bw.
  - rewrite !quote_eq. bw.
  - rewrite !footnote_eq. destruct o; cbn [each_opt]; bw.
  - rewrite !link_eq. intros s. generalize (flag (resolving s)). intros b. revert s.
    destruct o as [l|].
    + change (below (seq [enter "link_macro" [d; b; 1]; each (eval_inline anchors wants n) l; exit "link_macro" [d; b; 1]]) (seq [enter "link_macro" [d; b; 1]; each (eval_inline anchors wants m) l; exit "link_macro" [d; b; 1]])). bw.
    + change (below (seq [enter "link_macro" [d; b; 0]; exit "link_macro" [d; b; 0]]) (seq [enter "link_macro" [d; b; 0]; exit "link_macro" [d; b; 0]])). bw.
  - rewrite !xref_eq.
    assert (M : forall k k', (forall b, below (k b) (k' b)) -> forall v, below (replace_resolving v k) (replace_resolving v k')) by (intros k k' X v s; unfold replace_resolving; apply X).
    cbn [seq]. apply below_then; [bw|]. apply below_then; [|apply below_refl]. apply M.
    intros b. cbv zeta. destruct b; [bw|]. destruct (text_of_xref anchors target o) as [l|] eqn:Et; [|bw].
    destruct (lookup anchors (get_id target)) as [a|] eqn:Ea.
    + destruct (match reftext a with Some [] => false | Some _ => true | None => negb (some o) end) eqn:Eb.
      * destruct n as [|f]; [intros s; now left|]. destruct m as [|g]; [lia|].
        assert (X : every (fun i => below (eval_inline anchors wants f i) (eval_inline anchors wants g i)) l) by (apply every_all; apply IHn; lia). bw.
      * assert (Eo : o = Some l) by (unfold text_of_xref in Et; rewrite Ea in Et; destruct (reftext a) as [[|y r]|]; [exact Et|discriminate Eb|destruct o; [exact Et|discriminate Eb] ]).
        subst o. bw.
    + assert (Eo : o = Some l) by (unfold text_of_xref in Et; rewrite Ea in Et; exact Et). subst o. bw.
  - rewrite !mailto_eq. destruct o; cbn [each_opt]; bw.
  - destruct n, m; bw.
  - rewrite !visible_eq. cbn [seq]. apply below_then; [bw|]. apply below_then; [|bw]. apply below_ask; bw.
  - rewrite !concealed_eq. destruct K as (Kp & Ks & Kt). cbv zeta. cbn [seq]. apply below_then; [bw|]. apply below_then; [|bw]. apply below_ask; [|bw].
    destruct s, t; cbn [every_opt] in Ks, Kt; bw.
  - destruct n, m; bw.
Qed.
Lemma below_cell f f' : below f f' -> below (cell_of f) (cell_of f').
Proof. intros H s. unfold cell_of. destruct (H (St [] false)) as [->| ->]; [now left|now right]. Qed.
Lemma more_fuel anchors wants n m doc : n <= m -> eval_document anchors wants n doc <> Loops -> eval_document anchors wants m doc = eval_document anchors wants n doc.
Proof.
  intros H N. unfold eval_document in *.
  destruct (G_doc anchors wants n m below True (below_refl skip) (fun e => below_refl (emit e)) below_then (below_inline anchors wants n m H) below_cell
    (fun _ => below_refl _) doc (or_introl I) (St [] false)) as [E|E]; [contradiction|now symmetry].
Qed.

(** ** Termination *)
Section Rank.
  Context (anchors : anchor_table) (wants : list event -> bool) (rank : string -> nat) (W : well_founded_anchors anchors rank).
  Definition low (n : nat) (l : list string) : Prop := Forall (fun target => lookup anchors (get_id target) <> None -> rank (get_id target) < n) l.
  Definition ready (n : nat) (flag : bool) (l : list string) : Prop := low n (if flag then tl l else l).
  Lemma low_app n a b : low n (a ++ b) <-> low n a /\ low n b.
  Proof. apply Forall_app. Qed.
  Lemma ready_low n b l : low n l -> ready n b l.
  Proof. unfold ready. destruct b; [|auto]. destruct l; [auto|]. intros H. now apply Forall_inv_tail in H. Qed.
  (** with [n] deep references [f] ends if all references to [l] but the first have a low rank *)
  Definition tm (n : nat) (f : action) (l : list string) : Prop :=
    forall s, ready n (resolving s) l ->
    match f s with Loops => False | Crash => True | Done s' => (resolving s = false -> resolving s' = false) /\ (resolving s' = false -> resolving s = false \/ l <> []) end.
  Lemma tm_skip n : tm n skip [].
  Proof. intros s _. cbn. auto. Qed.
  Lemma tm_emit n e : tm n (emit e) [].
  Proof. intros s _. cbn. auto. Qed.
  Lemma tm_then n f g a b : tm n f a -> tm n g b -> tm n (then_ f g) (a ++ b).
  Proof.
    intros F H s R. unfold then_. specialize (F s).
    assert (Ra : ready n (resolving s) a).
    { unfold ready in *. destruct (resolving s); [|now apply low_app in R]. destruct a as [|x a]; [constructor|]. cbn in R |- *. now apply low_app in R. }
    specialize (F Ra). destruct (f s) as [m| |]; [|exact I|contradiction]. destruct F as [F1 F2]. specialize (H m).
    assert (Rb : ready n (resolving m) b).
    { unfold ready in R. destruct (resolving s) eqn:Es.
      - destruct a as [|x a].
        + destruct (resolving m); [exact R|]. destruct (F2 eq_refl); [discriminate|contradiction].
        + cbn in R. apply low_app in R. now apply ready_low.
      - rewrite (F1 eq_refl). apply low_app in R. exact (proj2 R). }
    specialize (H Rb). destruct (g m) as [s'| |]; [|exact I|contradiction]. destruct H as [H1 H2]. split; [auto|].
    intros E. destruct (H2 E) as [Em|Nb].
    - destruct (F2 Em) as [Es|Na]; [now left|right]. destruct a; [contradiction|discriminate].
    - right. destruct a; [exact Nb|discriminate].
  Qed.
  Lemma tm_eq n f a b : tm n f a -> a = b -> tm n f b.
  Proof. now intros H <-. Qed.
  Lemma tm_each {A} n (f : A -> action) (R : A -> list string) l : every (fun a => tm n (f a) (R a)) l -> tm n (each f l) (flat_map R l).
  Proof. induction l as [|a l IH]; cbn; [intros _; apply tm_skip|]. intros [X Y]. apply tm_then; auto. Qed.
  Lemma tm_less n f a b : tm n f a -> (forall flag, ready n flag b -> ready n flag a) -> (a <> [] -> b <> []) -> tm n f b.
  Proof.
    intros F R N s H. specialize (F s (R _ H)). destruct (f s); auto. destruct F as [F1 F2]. split; [exact F1|]. intros E. destruct (F2 E); auto.
  Qed.
  Lemma tm_ask n f l : tm n f l -> tm n (ask wants f skip) l.
  Proof. intros F s R. unfold ask. destruct (wants (out s)); [now apply F|]. cbn. auto. Qed.
  Ltac tw := first [apply tm_skip | match goal with |- tm _ (seq _) _ => cbn [seq] end; tw | eapply tm_then; [tw|tw] | apply tm_emit | apply tm_each; eassumption].
  Ltac tdone := cbn; rewrite ?app_nil_r; reflexivity.
  Ltac tww := eapply tm_eq; [tw|tdone].
  Lemma tm_inline n : forall i, tm n (eval_inline anchors wants n i) (targets i).
  Proof.
    induction n as [n IHn] using (well_founded_induction Wf_nat.lt_wf).
    induction i as [i K] using inline_rect'.
    destruct i as [k d l|l|t|call d|d l|d o|d o|target d o|d o|id|l|p s t|]; cbn [kids] in K; cbn [targets].
    - rewrite span_eq. tww.
    - rewrite passthru_eq. tww.
    - destruct n; apply tm_emit.
    - destruct n; apply tm_emit.
    - rewrite quote_eq. tww.
    - rewrite footnote_eq. destruct o; cbn [each_opt every_opt] in *; tww.
    - rewrite link_eq. intros s. generalize (flag (resolving s)). intros b. revert s. destruct o as [l|].
      + change (tm n (seq [enter "link_macro" [d; b; 1]; each (eval_inline anchors wants n) l; exit "link_macro" [d; b; 1]]) (flat_map targets l)). tww.
      + change (tm n (seq [enter "link_macro" [d; b; 0]; exit "link_macro" [d; b; 0]]) []). tww.
    - rewrite xref_eq. intros s R. cbn [seq]. unfold then_ at 1, enter at 1, emit at 1. unfold then_ at 1, replace_resolving at 1. cbn [out resolving]. cbv zeta.
      assert (fin : forall s1, (match then_ (replace_resolving false (fun _ => skip)) (then_ (exit "xref" [d; flag (some o)]) skip) s1 with
         | Loops => False | Crash => True | Done s' => (resolving s = false -> resolving s' = false) /\ (resolving s' = false -> resolving s = false \/ target :: match o with Some l => flat_map targets l | None => [] end <> []) end)).
      { intros s1. cbn. split; [auto|]. intros _. right. discriminate. }
      destruct (resolving s) eqn:Es; [cbn; split; [discriminate|]; intros _; right; discriminate|].
      unfold ready in R. 
      destruct (text_of_xref anchors target o) as [l|] eqn:Et; [|cbn; auto].
      assert (mid : forall f, (match f (St (out s ++ [Enter "xref" [d; flag (some o)]]) true) with Loops => False | _ => True end) ->
         match (match f (St (out s ++ [Enter "xref" [d; flag (some o)]]) true) with
                | Done s' => then_ (replace_resolving false (fun _ => skip)) (then_ (exit "xref" [d; flag (some o)]) skip) s' | Crash => Crash | Loops => Loops end) with
         | Loops => False | Crash => True | Done s' => (false = false -> resolving s' = false) /\ (resolving s' = false -> false = false \/ target :: match o with Some l => flat_map targets l | None => [] end <> []) end).
      { intros f. destruct (f _); [intros _; apply fin|auto|auto]. }
      apply mid. clear mid fin.
      set (b := flag match lookup anchors (get_id target) with Some a => is_biblio a | None => false end). clearbody b.
      assert (T : forall f, every (fun i => tm f (eval_inline anchors wants f i) (targets i)) l -> low f (tl (flat_map targets l)) ->
         match seq [enter "xref_text" [b]; each (eval_inline anchors wants f) l; exit "xref_text" [b]] (St (out s ++ [Enter "xref" [d; flag (some o)]]) true) with Loops => False | _ => True end).
      { intros f Hf Lo. assert (X : tm f (seq [enter "xref_text" [b]; each (eval_inline anchors wants f) l; exit "xref_text" [b]]) (flat_map targets l)) by tww.
        specialize (X (St (out s ++ [Enter "xref" [d; flag (some o)]]) true) Lo). destruct (seq _ _); auto. }
      assert (own : o = Some l -> match seq [enter "xref_text" [b]; each (eval_inline anchors wants n) l; exit "xref_text" [b]] (St (out s ++ [Enter "xref" [d; flag (some o)]]) true) with Loops => False | _ => True end).
      { intros Eo. apply T; [rewrite Eo in K; exact K|]. rewrite Eo in R. apply Forall_inv_tail in R. destruct (flat_map targets l); [constructor|]. now apply Forall_inv_tail in R. }
      destruct (lookup anchors (get_id target)) as [a|] eqn:Ea.
      + destruct (match reftext a with Some [] => false | Some _ => true | None => negb (some o) end) eqn:Eb.
        * apply Forall_inv in R. assert (Rk : rank (get_id target) < n) by (apply R; rewrite Ea; discriminate).
          destruct n as [|f]; [lia|]. apply T; [apply every_all; apply IHn; lia|].
          assert (Tl : l = opt (reftext a) \/ l = a_title a).
          { unfold text_of_xref in Et. rewrite Ea in Et. destruct (reftext a) as [[|y r]|]; [discriminate Eb|injection Et as <-; now left|].
            destruct o; [discriminate Eb|]. destruct (a_title a); [discriminate Et|]. injection Et as <-. now right. }
          pose proof (W _ _ _ Ea Tl) as Wl. eapply Forall_impl; [|exact Wl]. cbn beta. intros t Ht Nt. specialize (Ht Nt). lia.
        * apply own. unfold text_of_xref in Et. rewrite Ea in Et. destruct (reftext a) as [[|y r]|]; [exact Et|discriminate Eb|]. destruct o; [exact Et|discriminate Eb].
      + apply own. unfold text_of_xref in Et. rewrite Ea in Et. exact Et.
    - rewrite mailto_eq. destruct o; cbn [each_opt every_opt] in *; tww.
    - destruct n; apply tm_emit.
    - rewrite visible_eq. eapply tm_eq; [cbn [seq]; eapply tm_then; [apply tm_emit|]; eapply tm_then; [apply tm_ask; apply tm_each; exact K|apply tm_skip]|tdone].
    - rewrite concealed_eq. destruct K as (Kp & Ks & Kt). cbv zeta. eapply tm_eq; [cbn [seq]; eapply tm_then; [apply tm_emit|]; eapply tm_then; [apply tm_ask|tw]|].
      + instantiate (1 := flat_map targets p ++ (match s with Some l => flat_map targets l | None => [] end) ++ (match t with Some l => flat_map targets l | None => [] end)).
        destruct s, t; cbn [every_opt] in *; tww.
      + tdone.
    - destruct n; apply tm_skip.
  Qed.
  Context (n : nat) (bound : forall id, lookup anchors id <> None -> rank id < n).
  (** from a state in which no reference is being resolved *)
  Definition ends (f f' : action) : Prop := forall s, resolving s = false -> match f s with Loops => False | Crash => True | Done s' => resolving s' = false end.
  Lemma ends_then f f' g g' : ends f f' -> ends g g' -> ends (then_ f g) (then_ f' g').
  Proof. intros F H s X. unfold then_. specialize (F s X). destruct (f s) as [m| |]; [exact (H m F)|exact I|contradiction]. Qed.
  Lemma ends_inline i : ends (eval_inline anchors wants n i) (eval_inline anchors wants n i).
  Proof.
    intros s X. pose proof (tm_inline n i s) as T. destruct (eval_inline anchors wants n i s) as [m| |]; [|exact I|].
    - apply T; [|exact X]. rewrite X. apply Forall_forall. intros t _. apply bound.
    - apply T. rewrite X. apply Forall_forall. intros t _. apply bound.
  Qed.
  Lemma ends_cell f f' : ends f f' -> ends (cell_of f) (cell_of f').
  Proof. intros H s X. unfold cell_of. specialize (H (St [] false) eq_refl). destruct (f (St [] false)); auto. Qed.
  Lemma ranked_ends doc : eval_document anchors wants n doc <> Loops.
  Proof.
    intros E. unfold eval_document in E.
    pose proof (G_doc anchors wants n n ends True (fun s X => X) (fun e s X => X) ends_then ends_inline ends_cell (fun _ s _ => I) doc (or_introl I) (St [] false) eq_refl) as T.
    rewrite E in T. exact T.
  Qed.
End Rank.
Lemma lookup_in anchors id a : lookup anchors id = Some a -> In id (map fst anchors).
Proof. induction anchors as [|[k b] r IH]; cbn; [discriminate|]. destruct (k =? id)%string eqn:E; [apply String.eqb_eq in E; auto|]. intros H. right. auto. Qed.
Lemma ranks_bounded (anchors : anchor_table) (rank : string -> nat) : exists n, forall id, lookup anchors id <> None -> rank id < n.
Proof.
  exists (S (list_max (map rank (map fst anchors)))). intros id H. destruct (lookup anchors id) as [a|] eqn:E; [|contradiction].
  apply lookup_in in E. apply (in_map rank) in E.
  pose proof (proj1 (list_max_le (map rank (map fst anchors)) _) (Nat.le_refl _)) as L. rewrite Forall_forall in L. specialize (L _ E). lia.
Qed.
