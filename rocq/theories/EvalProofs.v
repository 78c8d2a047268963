(** Proofs about evaluation: induction over the tree, and what each part of it says to the backend. *)
From Verif Require Import Base EvalModel EvalSpec.
Open Scope string_scope.
Open Scope list_scope.

(** ** Induction *)
Section All.
  Context {A : Type} (P : A -> Prop) (H : forall a, P a).
  Fixpoint every_all (l : list A) : every P l := match l with [] => I | a :: l => conj (H a) (every_all l) end.
  Definition every_opt_all (o : option (list A)) : every_opt P o := match o with Some l => every_all l | None => I end.
End All.
Lemma every_impl {A} (P Q : A -> Prop) (l : list A) : (forall a, P a -> Q a) -> every P l -> every Q l.
Proof. intros H. induction l as [|a l IH]; cbn; [auto|]. intros [X Y]. auto. Qed.
Lemma every_in {A} (P : A -> Prop) (l : list A) : every P l <-> forall a, In a l -> P a.
Proof.
  induction l as [|a l IH]; cbn; [tauto|]. rewrite IH. split; [intros [X Y] b [<-|I]; auto|intros X; split; auto].
Qed.
(** the inline nodes directly in an inline node *)
Definition kids (P : inline -> Prop) (i : inline) : Prop :=
  match i with
  | ISpan _ _ l | IPassthru l | IQuote _ l | IVisible l => every P l
  | IFootnote _ o | ILink _ o | IXref _ _ o | IMailto _ o => every_opt P o
  | IConcealed p s t => every P p /\ every_opt P s /\ every_opt P t
  | _ => True
  end.
Lemma inline_rect' (P : inline -> Prop) : (forall i, kids P i -> P i) -> forall i, P i.
Proof.
  intros H. fix IH 1. intros i. apply H.
  destruct i; cbn;
    first [exact I | exact (every_all P IH _) | exact (every_opt_all P IH _) | exact (conj (every_all P IH _) (conj (every_opt_all P IH _) (every_opt_all P IH _)))].
Qed.
Lemma toc_rect' (P : toc_node -> Prop) : (forall d n t l, every P l -> P (TocNode d n t l)) -> forall t, P t.
Proof. intros H. fix IH 1. intros [d n t l]. apply H. exact (every_all P IH l). Qed.
Section BlockAll.
  Context {B : Type} (P : B -> Prop).
  Definition item_all (i : item B) : Prop := every P (i_blocks i) /\ match i_meta i with MDesc _ (Some b) => P b | _ => True end.
  Context (H : forall b, P b).
  Definition section_all_ (s : section B) : section_fits P s := every_all P H (s_blocks s).
  Definition part_all_ (p : part B) : part_fits P p := conj (every_opt_all P H (p_intro p)) (every_all _ section_all_ (p_sections p)).
  Definition item_all_ (i : item B) : item_all i :=
    conj (every_all P H (i_blocks i)) (match i_meta i as m return (match m with MDesc _ (Some b) => P b | _ => True end : Prop) with MDesc _ (Some b) => H b | MDesc _ None => I | MOther => I end).
  Definition content_all_ (c : doc_content B) : content_fits P c :=
    match c with
    | DBlocks l => every_all P H l
    | DSections p s => conj (every_opt_all P H p) (every_all _ section_all_ s)
    | DParts p o q s => conj (every_opt_all P H p) (conj (every_all _ section_all_ o) (conj (every_all _ part_all_ q) (every_all _ section_all_ s)))
    end.
  Definition cell_all_ (c : cell B) : cell_fits P c :=
    match c_content c as x return (match x with CAsciiDoc doc => document_fits P doc | _ => True end : Prop) with
    | CAsciiDoc doc => content_all_ (d_content doc) | _ => I end.
  Definition row_all_ (r : row B) : row_fits P r := every_all _ cell_all_ (cells r).
  Definition row_opt_all_ (o : option (row B)) : match o with Some r => row_fits P r | None => True end := match o with Some r => row_all_ r | None => I end.
  Definition table_all_ (t : table B) : table_fits P t := conj (row_opt_all_ (header_row t)) (conj (every_all _ row_all_ (body_rows t)) (row_opt_all_ (footer_row t))).
End BlockAll.
Definition body_all (P : block -> Prop) (c : content block) : Prop :=
  match c with
  | Compound l => every P l
  | TableContent t => table_fits P t
  | SectionContent s => section_fits P s
  | ListContent _ _ items => every (item_all P) items
  | _ => True
  end.
Lemma block_rect' (P : block -> Prop) : (forall d title attr cite cx body, body_all P body -> P (Block d title attr cite cx body)) -> forall b, P b.
Proof.
  intros H. fix IH 1. intros [d title attr cite cx body]. apply H.
  destruct body; cbn; first [exact I | exact (every_all P IH _) | exact (table_all_ P IH _) | exact (section_all_ P IH _) | exact (every_all _ (item_all_ P IH) _)].
Qed.

(** ** Streams *)
Lemma balanced_app lone a b : balanced lone a -> balanced lone b -> balanced lone (a ++ b).
Proof.
  intros X Y. induction X as [|c d t r X IH|l r X1 IH1 X2 IH|c g l r X1 IH1 X2 IH|c g r L X IH]; cbn; [exact Y| | | |].
  - constructor. auto.
  - constructor; auto.
  - rewrite <- app_assoc. cbn. constructor; auto.
  - constructor; auto.
Qed.
(** a stream that has opened [stk] and not closed it *)
Section Opened.
  Context (lone : string -> Prop).
  Inductive opened : list (string * list nat) -> list event -> Prop :=
  | op_nil l : balanced lone l -> opened [] l
  | op_cons call args stk l r : opened stk l -> balanced lone r -> opened ((call, args) :: stk) (l ++ Enter call args :: r).
  Lemma opened_app stk a b : opened stk a -> balanced lone b -> opened stk (a ++ b).
  Proof.
    intros X Y. destruct X as [l L|c g stk l r L R]; [constructor; now apply balanced_app|].
    rewrite <- app_assoc. cbn. constructor; [exact L|]. now apply balanced_app.
  Qed.
  Lemma opened_enter stk a c g : opened stk a -> opened ((c, g) :: stk) (a ++ [Enter c g]).
  Proof. intros X. constructor; [exact X|constructor]. Qed.
  Lemma opened_exit stk a c g : opened ((c, g) :: stk) a -> opened stk (a ++ [Exit c g]).
  Proof.
    inversion 1; subst. rewrite <- app_assoc. cbn. apply opened_app; [assumption|]. apply (bal_pair lone c g r []); [assumption|constructor].
  Qed.
End Opened.
Lemma all_said_app a b : all_said (a ++ b) = all_said a ++ all_said b.
Proof. apply flat_map_app. Qed.
Lemma says_app anchors x a b v w : says anchors x a v -> says anchors x b w -> says anchors x (a ++ b) (v ++ w).
Proof.
  intros X Y. revert w b Y. induction X; intros w' b Y; cbn; try (econstructor; eauto; fail); [exact Y|..]; rewrite <- ?app_assoc;
    try (econstructor; eauto; fail).
Qed.

(** ** The effect of an action *)
Section Effect.
  Context (anchors : anchor_table) (wants : list event -> bool) (lone : string -> Prop).
  Definition lone_ok (run : list inline) : Prop := lone "visible_index_term" \/ no_visible run.
  Context (anchors_ok : forall id a, lookup anchors id = Some a -> lone_ok (opt (reftext a)) /\ lone_ok (a_title a)).
  Lemma lone_app a b : lone_ok (a ++ b) -> lone_ok a /\ lone_ok b.
  Proof. unfold lone_ok, no_visible. rewrite existsb_app, orb_false_iff. tauto. Qed.
  (** [f] takes the stack of open calls from [stk] to [stk'] and says what [run] says *)
  Definition sp (x : bool) (f : action) (stk stk' : list (string * list nat)) (run : list inline) : Prop :=
    forall s s', f s = Done s' -> (x = false -> resolving s = false) -> lone_ok run ->
    (x = false -> resolving s' = false) /\
    exists es, out s' = out s ++ es /\ (forall pre, opened lone stk pre -> opened lone stk' (pre ++ es)) /\ says anchors x run (all_said es).
  Lemma sp_skip x stk : sp x skip stk stk [].
  Proof.
    intros s s' E X _. injection E as <-. split; [exact X|]. exists []. rewrite app_nil_r.
    split; [reflexivity|]. split; [intros pre O; now rewrite app_nil_r|constructor].
  Qed.
  Lemma sp_then x f g a b c r r' : sp x f a b r -> sp x g b c r' -> sp x (then_ f g) a c (r ++ r').
  Proof.
    intros F G s s' E X L. unfold then_ in E. destruct (f s) as [m| |] eqn:Ef; try discriminate E.
    apply lone_app in L. destruct L as [L L'].
    destruct (F s m Ef X L) as [Xm (es & Eo & O & Y)]. destruct (G m s' E Xm L') as [Xs (es' & Eo' & O' & Y')].
    split; [exact Xs|]. exists (es ++ es'). rewrite Eo', Eo, app_assoc. split; [reflexivity|].
    split; [intros pre P; rewrite app_assoc; auto|]. rewrite all_said_app. now apply says_app.
  Qed.
  Lemma sp_cons x f l a b c r r' : sp x f a b r -> sp x (seq l) b c r' -> sp x (seq (f :: l)) a c (r ++ r').
  Proof. apply sp_then. Qed.
  Lemma sp_emit x e a b run : (forall pre, opened lone a pre -> opened lone b (pre ++ [e])) -> says anchors x run (said e) -> sp x (emit e) a b run.
  Proof.
    intros O Y s s' E X L. injection E as <-. cbn. split; [exact X|]. exists [e]. split; [reflexivity|]. split; [exact O|].
    unfold all_said. cbn. now rewrite app_nil_r.
  Qed.
  Lemma sp_enter x call args stk : sp x (enter call args) stk ((call, args) :: stk) [].
  Proof. apply sp_emit; [|constructor]. intros pre. apply opened_enter. Qed.
  Lemma sp_exit x call args stk : sp x (exit call args) ((call, args) :: stk) stk [].
  Proof. apply sp_emit; [|constructor]. intros pre. apply opened_exit. Qed.
  Lemma sp_visit x call d t stk run : says anchors x run [(call, d, t)] -> sp x (visit call d t) stk stk run.
  Proof. intros Y. apply sp_emit; [|exact Y]. intros pre O. apply opened_app; [exact O|]. repeat constructor. Qed.
  Lemma sp_leaf x call d stk : sp x (visit call d "") stk stk [ILeaf call d].
  Proof. apply sp_visit. repeat constructor. Qed.
  Lemma sp_run x f a b r r' : sp x f a b r -> r = r' -> sp x f a b r'.
  Proof. now intros X <-. Qed.
  Lemma sp_weaken x f a b r r' : sp x f a b r -> (lone_ok r' -> lone_ok r) -> (forall w, says anchors x r w -> says anchors x r' w) -> sp x f a b r'.
  Proof.
    intros F L Y s s' E X L'. destruct (F s s' E X (L L')) as [Xs (es & Eo & O & S)]. split; [exact Xs|]. exists es.
    split; [exact Eo|]. split; [exact O|]. auto.
  Qed.
  Lemma sp_each {A} x (f : A -> action) (R : A -> list inline) stk l : every (fun a => sp x (f a) stk stk (R a)) l -> sp x (each f l) stk stk (flat_map R l).
  Proof. induction l as [|a l IH]; cbn; intros H; [apply sp_skip|]. destruct H as [H1 H2]. eapply sp_then; eauto. Qed.
  Lemma sp_crash x a b r : sp x (fun _ => Crash) a b r.
  Proof. intros s s' E. discriminate E. Qed.
  Lemma flat_map_single {A} (l : list A) : flat_map (fun a => [a]) l = l.
  Proof. induction l as [|a l IH]; cbn; [reflexivity|now rewrite IH]. Qed.
End Effect.

(** walk over the actions of a sequence *)
Ltac norm := cbn [app]; rewrite ?app_nil_r, <- ?app_assoc; cbn [app]; reflexivity.
Ltac stp := first [apply sp_skip | apply sp_enter | apply sp_exit | eassumption | apply sp_leaf | match goal with H : _ |- _ => eapply H; fail | H : _ |- _ => now eapply H end ].
Ltac walk := first [apply sp_skip | eapply sp_cons; [solve [stp]|walk] ].

(** a cross reference, in terms of the text it is given *)
Lemma xref_eq anchors wants n target d own :
  eval_inline anchors wants n (IXref target d own) =
  seq [enter "xref" [d; flag (some own)];
       replace_resolving true (fun resolving =>
         let biblio := flag (match lookup anchors (get_id target) with Some a => is_biblio a | None => false end) in
         if resolving then visit "missing_xref" 0 target
         else match text_of_xref anchors target own with
              | None => visit "missing_xref" 0 target
              | Some l =>
                  if match lookup anchors (get_id target) with Some a => match reftext a with Some [] => false | Some _ => true | None => negb (some own) end | None => false end
                  then match n with 0 => fun _ => Loops | S f => seq [enter "xref_text" [biblio]; each (eval_inline anchors wants f) l; exit "xref_text" [biblio]] end
                  else seq [enter "xref_text" [biblio]; each (eval_inline anchors wants n) l; exit "xref_text" [biblio]]
              end);
       replace_resolving false (fun _ => skip);
       exit "xref" [d; flag (some own)]].
Proof.
  unfold text_of_xref.
  destruct n as [|n]; cbn -[seq enter exit visit each replace_resolving]; destruct (lookup anchors (get_id target)) as [a|]; destruct own as [o|]; cbn -[seq enter exit visit each replace_resolving]; try reflexivity;
    destruct (reftext a) as [[|y r]|]; try reflexivity; destruct (a_title a) as [|z l]; reflexivity.
Qed.

(** the other nodes *)
Section Equations.
  Context (anchors : anchor_table) (wants : list event -> bool) (n : nat).
  Notation ev := (eval_inline anchors wants n).
  Lemma span_eq k d l : ev (ISpan k d l) = seq [enter (span_name k) [d]; each ev l; exit (span_name k) [d]].
  Proof. destruct n; reflexivity. Qed.
  Lemma passthru_eq l : ev (IPassthru l) = seq [enter "inline_passthrough" []; each ev l; exit "inline_passthrough" []].
  Proof. destruct n; reflexivity. Qed.
  Lemma quote_eq d l : ev (IQuote d l) = seq [enter "inline_quote" [d]; each ev l; exit "inline_quote" [d]].
  Proof. destruct n; reflexivity. Qed.
  Lemma footnote_eq d o : ev (IFootnote d o) = seq [enter "footnote" [d]; each_opt ev o; exit "footnote" [d]].
  Proof. destruct n; reflexivity. Qed.
  Lemma link_eq d o :
    ev (ILink d o) = fun s => match o with
      | Some l => seq [enter "link_macro" [d; flag (resolving s); 1]; each ev l; exit "link_macro" [d; flag (resolving s); 1]] s
      | None => seq [enter "link_macro" [d; flag (resolving s); 0]; exit "link_macro" [d; flag (resolving s); 0]] s
      end.
  Proof. destruct n; reflexivity. Qed.
  Lemma mailto_eq d o : ev (IMailto d o) = seq [enter "mailto_macro" [d; flag (some o)]; each_opt ev o; exit "mailto_macro" [d; flag (some o)]].
  Proof. destruct n; reflexivity. Qed.
  Lemma visible_eq l : ev (IVisible l) = seq [enter "visible_index_term" []; ask wants (each ev l) skip].
  Proof. destruct n; reflexivity. Qed.
  Lemma concealed_eq p s t :
    ev (IConcealed p s t) =
      let n := 1 + flag (some s) + flag (some t) in
      seq [enter "concealed_index_term" [n];
           ask wants (seq [enter "concealed_index_term_primary" []; each ev p; exit "concealed_index_term_primary" [];
                     match s with Some l => seq [enter "concealed_index_term_secondary" []; each ev l; exit "concealed_index_term_secondary" []] | None => skip end;
                     match t with Some l => seq [enter "concealed_index_term_tertiary" []; each ev l; exit "concealed_index_term_tertiary" []] | None => skip end]) skip;
           exit "concealed_index_term" [n]].
  Proof. destruct n; reflexivity. Qed.
End Equations.

Section Inline.
  Context (anchors : anchor_table) (wants : list event -> bool) (lone : string -> Prop).
  Context (anchors_ok : forall id a, lookup anchors id = Some a -> lone_ok lone (opt (reftext a)) /\ lone_ok lone (a_title a)).
  Notation sp := (sp anchors lone).
  Notation ok_inline n := (fun i => forall x stk, sp x (eval_inline anchors wants n i) stk stk [i]).
  Lemma each_inline n x stk l : every (ok_inline n) l -> sp x (each (eval_inline anchors wants n) l) stk stk l.
  Proof.
    intros H. eapply sp_run; [apply sp_each with (R := fun i => [i])|apply flat_map_single].
    eapply every_impl; [|exact H]. auto.
  Qed.
  Lemma each_opt_inline n x stk o : every_opt (ok_inline n) o -> sp x (each_opt (eval_inline anchors wants n) o) stk stk (opt o).
  Proof. destruct o as [l|]; cbn; [apply each_inline|intros _; apply sp_skip]. Qed.
  Lemma lone_of r r' : (existsb has_visible r' = false -> existsb has_visible r = false) -> lone_ok lone r' -> lone_ok lone r.
  Proof. unfold lone_ok, no_visible. tauto. Qed.
  Ltac lone1 := apply lone_of; cbn; rewrite ?orb_false_r, ?existsb_app, ?orb_false_iff; tauto.
  Ltac says1 := let w := fresh in let H := fresh in intros w H; rewrite <- (app_nil_r w); constructor; [exact H|constructor].
  Lemma wrap x c g f stk l : sp x f ((c, g) :: stk) ((c, g) :: stk) l -> sp x (seq [enter c g; f; exit c g]) stk stk l.
  Proof. intros F. eapply sp_run; [walk|norm]. Qed.
  Lemma wrap_none x c g stk : sp x (seq [enter c g; exit c g]) stk stk [].
  Proof. eapply sp_run; [walk|norm]. Qed.
  Lemma sp_ask x f g a b r : sp x f a b r -> sp x g a b r -> sp x (ask wants f g) a b r.
  Proof. intros F G s s'. unfold ask. destruct (wants (out s)); [apply F|apply G]. Qed.
  Lemma text_of_anchor target own l a :
    lookup anchors (get_id target) = Some a -> text_of_xref anchors target own = Some l -> lone_ok lone (opt own) -> lone_ok lone l.
  Proof.
    intros E T O. destruct (anchors_ok _ _ E) as [R Ti]. unfold text_of_xref in T. rewrite E in T.
    destruct (reftext a) as [[|y r]|].
    - subst own. exact O.
    - injection T as <-. exact R.
    - destruct own as [o|]; [injection T as <-; exact O|]. destruct (a_title a); [discriminate T|]. injection T as <-. exact Ti.
  Qed.
  (** the middle part of a cross reference *)
  Definition middle (x : bool) (f : action) (run : list inline) : Prop :=
    forall s s', f s = Done s' -> (x = false -> resolving s = false) -> lone_ok lone run ->
    exists es, out s' = out s ++ es /\ (forall pre st, opened lone st pre -> opened lone st (pre ++ es)) /\ says anchors x run (all_said es).
  Lemma frame x f c g run stk : middle x f run -> sp x (seq [enter c g; f; replace_resolving false (fun _ => skip); exit c g]) stk stk run.
  Proof.
    intros M s s' E X L. cbn in E. unfold then_, enter, exit, emit, skip, replace_resolving in E. cbn in E.
    destruct (f (St (out s ++ [Enter c g]) (resolving s))) as [m| |] eqn:Ef; try discriminate E. injection E as <-. cbn.
    split; [reflexivity|]. destruct (M _ _ Ef X L) as (es & Eo & Op & Y). cbn in Eo.
    exists ([Enter c g] ++ es ++ [Exit c g]). rewrite Eo, <- app_assoc, <- app_assoc. split; [reflexivity|]. split.
    - intros pre P. rewrite app_assoc, app_assoc. apply opened_exit. apply Op. now apply opened_enter.
    - unfold all_said. cbn. rewrite flat_map_app. cbn. now rewrite app_nil_r.
  Qed.
  Lemma sp_xref n x target d own stk :
    every_opt (ok_inline n) own -> (forall f, n = S f -> forall l, every (ok_inline f) l) ->
    sp x (eval_inline anchors wants n (IXref target d own)) stk stk [IXref target d own].
  Proof.
    intros O F.
    assert (missing : forall s s', visit "missing_xref" 0 target (St (out s) true) = Done s' ->
       x = true \/ text_of_xref anchors target own = None ->
       exists es, out s' = out s ++ es /\ (forall pre st, opened lone st pre -> opened lone st (pre ++ es)) /\ says anchors x [IXref target d own] (all_said es)).
    { intros s s' E C. injection E as <-. cbn. exists [Visit "missing_xref" 0 target]. split; [reflexivity|]. split.
      - intros pre st P. apply opened_app; [exact P|]. repeat constructor.
      - cbn. constructor; [exact C|constructor]. }
    assert (text : forall (ev : inline -> action) b l s s', (forall y st, sp y (each ev l) st st l) ->
       seq [enter "xref_text" [b]; each ev l; exit "xref_text" [b]] (St (out s) true) = Done s' ->
       text_of_xref anchors target own = Some l -> lone_ok lone l ->
       exists es, out s' = out s ++ es /\ (forall pre st, opened lone st pre -> opened lone st (pre ++ es)) /\ says anchors x [IXref target d own] (all_said es)).
    { intros ev b l s s' V E T L.
      assert (W : forall st, sp true (seq [enter "xref_text" [b]; each ev l; exit "xref_text" [b]]) st st l) by (intros st; apply wrap; apply V).
      destruct (W [] _ _ E ltac:(discriminate) L) as [_ (es & Eo & _ & Y)]. cbn in Eo. exists es. split; [exact Eo|]. split.
      - intros pre st P. destruct (W st _ _ E ltac:(discriminate) L) as [_ (es' & Eo' & Op & _)]. cbn in Eo'.
        rewrite Eo in Eo'. apply app_inv_head in Eo'. subst es'. now apply Op.
      - rewrite <- (app_nil_r (all_said es)). econstructor; [exact T|exact Y|constructor]. }
    assert (own_lone : lone_ok lone [IXref target d own] -> lone_ok lone (opt own)).
    { apply lone_of. cbn. destruct own; cbn; rewrite ?orb_false_r; auto. }
    assert (own_text : forall l y st, own = Some l -> sp y (each (eval_inline anchors wants n) l) st st l).
    { intros l y st ->. apply each_inline. exact O. }
    rewrite xref_eq. apply frame. intros s s' E X L. unfold replace_resolving in E. destruct (resolving s) eqn:Er.
    { apply (missing s s' E). left. destruct x; [reflexivity|]. now specialize (X eq_refl). }
    clear X. cbv zeta in E. destruct (text_of_xref anchors target own) as [l|] eqn:Et.
    2: { apply (missing s s' E). now right. }
    revert E. generalize (flag (match lookup anchors (get_id target) with Some a => is_biblio a | None => false end)). intros b E.
    destruct (lookup anchors (get_id target)) as [a|] eqn:Ea.
    - assert (Ll : lone_ok lone l) by (eapply text_of_anchor; [exact Ea|exact Et|exact (own_lone L)]).
      destruct (match reftext a with Some [] => false | Some _ => true | None => negb (some own) end) eqn:Eb.
      + destruct n as [|n]; [discriminate E|]. exact (text _ _ _ s s' (fun z st => each_inline n z st l (F n eq_refl l)) E eq_refl Ll).
      + assert (Eo : own = Some l).
        { unfold text_of_xref in Et. rewrite Ea in Et. destruct (reftext a) as [[|y r]|]; [exact Et|discriminate Eb|].
          destruct own as [o|]; [exact Et|discriminate Eb]. }
        exact (text _ _ _ s s' (fun z st => own_text l z st Eo) E eq_refl Ll).
    - assert (Eo : own = Some l) by (unfold text_of_xref in Et; rewrite Ea in Et; exact Et).
      apply (text _ _ _ s s' (fun z st => own_text l z st Eo) E eq_refl). specialize (own_lone L). rewrite Eo in own_lone. exact own_lone.
  Qed.
  Ltac wrapped L := eapply sp_weaken; [apply wrap; L|lone1|says1].
  Lemma inline_ok n : forall i, ok_inline n i.
  Proof.
    induction n as [n IHn] using (well_founded_induction Wf_nat.lt_wf).
    assert (below : forall f, n = S f -> forall l, every (ok_inline f) l).
    { intros f -> l. apply every_all. apply IHn. lia. }
    assert (E : forall i, eval_inline anchors wants n i = eval_inline anchors wants n i) by reflexivity.
    induction i as [i K] using inline_rect'. intros x stk.
    destruct i as [k d l|l|t|call d|d l|d o|d o|target d o|d o|id|l|p s t|]; cbn [kids] in K.
    - rewrite (span_eq anchors wants n). wrapped ltac:(now apply each_inline).
    - rewrite (passthru_eq anchors wants n). wrapped ltac:(now apply each_inline).
    - destruct n; apply sp_visit; repeat constructor.
    - destruct n; apply sp_leaf.
    - rewrite (quote_eq anchors wants n). wrapped ltac:(now apply each_inline).
    - rewrite (footnote_eq anchors wants n). destruct o as [l|]; cbn [each_opt].
      + wrapped ltac:(now apply each_inline).
      + eapply sp_weaken; [apply wrap; apply sp_skip|lone1|]. intros w Y. inversion Y; subst. repeat constructor.
    - rewrite (link_eq anchors wants n). intros st st'. generalize (flag (resolving st)). intros b. revert st st'. destruct o as [l|].
      + wrapped ltac:(now apply each_inline).
      + eapply sp_weaken; [apply wrap_none|lone1|]. intros w Y. inversion Y; subst. repeat constructor.
    - apply sp_xref; auto.
    - rewrite (mailto_eq anchors wants n). destruct o as [l|]; cbn [each_opt].
      + wrapped ltac:(now apply each_inline).
      + eapply sp_weaken; [apply wrap; apply sp_skip|lone1|]. intros w Y. inversion Y; subst. repeat constructor.
    - destruct n; apply sp_visit; repeat constructor.
    - rewrite (visible_eq anchors wants n). intros st st' Es X L.
      assert (Lv : lone "visible_index_term") by (destruct L as [L|L]; [exact L|discriminate L]).
      assert (W : sp x (seq [enter "visible_index_term" []; ask wants (each (eval_inline anchors wants n) l) skip]) stk stk ([] ++ [IVisible l] ++ [])).
      { apply sp_cons with (b := stk).
        - apply sp_emit; [|constructor]. intros pre P. apply opened_app; [exact P|]. apply bal_lone; [exact Lv|constructor].
        - apply sp_cons with (b := stk); [|apply sp_skip]. apply sp_ask.
          + eapply sp_weaken; [now apply each_inline|left; exact Lv|says1].
          + eapply sp_weaken; [apply sp_skip|left; exact Lv|]. intros w Y. inversion Y; subst. apply says_visible_not. constructor. }
      exact (W st st' Es X L).
    - rewrite (concealed_eq anchors wants n). destruct K as (Kp & Ks & Kt). cbv zeta.
      apply wrap. apply sp_ask.
      + assert (Ps : forall stk, sp x (match s with Some l => seq [enter "concealed_index_term_secondary" []; each (eval_inline anchors wants n) l; exit "concealed_index_term_secondary" []] | None => skip end) stk stk (opt s)).
        { intros stk'. destruct s as [l|]; [apply wrap; now apply each_inline|apply sp_skip]. }
        assert (Pt : forall stk, sp x (match t with Some l => seq [enter "concealed_index_term_tertiary" []; each (eval_inline anchors wants n) l; exit "concealed_index_term_tertiary" []] | None => skip end) stk stk (opt t)).
        { intros stk'. destruct t as [l|]; [apply wrap; now apply each_inline|apply sp_skip]. }
        assert (Pp : forall stk, sp x (each (eval_inline anchors wants n) p) stk stk p) by (intros; now apply each_inline).
        assert (W : forall stk, sp x (seq [enter "concealed_index_term_primary" []; each (eval_inline anchors wants n) p; exit "concealed_index_term_primary" [];
            match s with Some l => seq [enter "concealed_index_term_secondary" []; each (eval_inline anchors wants n) l; exit "concealed_index_term_secondary" []] | None => skip end;
            match t with Some l => seq [enter "concealed_index_term_tertiary" []; each (eval_inline anchors wants n) l; exit "concealed_index_term_tertiary" []] | None => skip end]) stk stk (p ++ opt s ++ opt t)).
        { intros stk'. eapply sp_run; [walk|norm]. }
        intros st st' Es X L.
        assert (L' : lone_ok lone (p ++ opt s ++ opt t)).
        { revert L. apply lone_of. cbn. rewrite orb_false_r, !existsb_app, !orb_false_iff. destruct s, t; cbn; tauto. }
        assert (Lp : lone_ok lone p /\ lone_ok lone (opt s) /\ lone_ok lone (opt t)).
        { apply lone_app in L'. destruct L' as [A B]. apply lone_app in B. tauto. }
        (* the three texts apart *)
        clear W. revert Es. cbn [seq]. intros Es.
        assert (W1 : forall stk, sp x (seq [enter "concealed_index_term_primary" []; each (eval_inline anchors wants n) p; exit "concealed_index_term_primary" []]) stk stk p) by (intros; apply wrap; apply Pp).
        unfold then_ at 1 in Es. destruct (enter "concealed_index_term_primary" [] st) as [s1| |] eqn:E1; try discriminate Es.
        unfold then_ at 1 in Es. destruct (each (eval_inline anchors wants n) p s1) as [s2| |] eqn:E2; try discriminate Es.
        unfold then_ at 1 in Es. destruct (exit "concealed_index_term_primary" [] s2) as [s3| |] eqn:E3; try discriminate Es.
        assert (E123 : seq [enter "concealed_index_term_primary" []; each (eval_inline anchors wants n) p; exit "concealed_index_term_primary" []] st = Done s3).
        { cbn [seq]. unfold then_. rewrite E1, E2, E3. reflexivity. }
        unfold then_ at 1 in Es. match type of Es with match ?f s3 with _ => _ end = _ => destruct (f s3) as [s4| |] eqn:E4; try discriminate Es end.
        unfold then_ at 1 in Es. match type of Es with match ?f s4 with _ => _ end = _ => destruct (f s4) as [s5| |] eqn:E5; try discriminate Es end.
        injection Es as <-.
        destruct (W1 (("concealed_index_term", [1 + flag (some s) + flag (some t)]) :: stk) _ _ E123 X (proj1 Lp)) as [X3 (e1 & O1 & P1 & Y1)].
        destruct (Ps (("concealed_index_term", [1 + flag (some s) + flag (some t)]) :: stk) _ _ E4 X3 (proj1 (proj2 Lp))) as [X4 (e2 & O2 & P2 & Y2)].
        destruct (Pt (("concealed_index_term", [1 + flag (some s) + flag (some t)]) :: stk) _ _ E5 X4 (proj2 (proj2 Lp))) as [X5 (e3 & O3 & P3 & Y3)].
        split; [exact X5|]. exists (e1 ++ e2 ++ e3). rewrite O3, O2, O1, <- !app_assoc. split; [reflexivity|]. split.
        * intros pre P. rewrite app_assoc, app_assoc. auto.
        * rewrite !all_said_app. rewrite <- (app_nil_r (all_said e3)). apply says_concealed; auto. constructor.
      + eapply sp_weaken; [apply sp_skip|intros _; right; reflexivity|]. intros w Y. inversion Y; subst. apply says_concealed_not. constructor.
    - destruct n; (eapply sp_weaken; [apply sp_skip|lone1|]; intros w Y; inversion Y; subst; repeat constructor).
  Qed.
End Inline.
