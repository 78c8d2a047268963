(** Proofs about C66, first part: what each call of the backend leaves of the texts that have been written. *)
From Verif Require Import Base AttrsModel EvalModel EscapeModel EvalSpec HtmlModel HtmlSpec HtmlScanProofs HtmlTagProofs HtmlCallProofs HtmlPartProofs ShownSpec.
Open Scope string_scope.
Open Scope nat_scope.
Open Scope list_scope.

(** ** Parts of lists *)
Inductive sub {A : Type} : list A -> list A -> Prop :=
| sub_nil l : sub [] l
| sub_keep x a c : sub a c -> sub (x :: a) (x :: c)
| sub_drop x a c : sub a c -> sub a (x :: c).
Lemma sub_refl {A} (l : list A) : sub l l.
Proof. induction l; constructor; auto. Qed.
Lemma sub_app {A} (a c a' c' : list A) : sub a c -> sub a' c' -> sub (a ++ a') (c ++ c').
Proof. intros X Y. induction X as [l|x a c X IH|x a c X IH]; cbn; [|now constructor|now constructor]. induction l; cbn; [exact Y|now constructor]. Qed.
Lemma sub_more {A} (a c d : list A) : sub a c -> sub a (c ++ d).
Proof. intros X. rewrite <- (app_nil_r a). apply sub_app; [exact X|constructor]. Qed.
Lemma sub_after {A} (a c d : list A) : sub a d -> sub a (c ++ d).
Proof. intros X. change a with ([] ++ a). apply sub_app; [constructor|exact X]. Qed.
Lemma sub_trans {A} (a c d : list A) : sub a c -> sub c d -> sub a d.
Proof.
  intros X Y. revert a X. induction Y as [l|x c d Y IH|x c d Y IH]; intros a X; [inversion X; constructor| |constructor; auto].
  inversion X; subst; [constructor|constructor; auto|apply sub_drop; auto].
Qed.

(** ** The texts among the pieces *)
Definition ne (s : string) : bool := negb (s =? "")%string.
Definition raw (p : piece) : list string := match p with Raw s => [s] | _ => [] end.
Definition raws (ps : pieces) : list string := filter ne (flat_map raw ps).
#[local] Arguments raws : simpl never.
Lemma filter_app' {A} (f : A -> bool) l l' : filter f (l ++ l') = filter f l ++ filter f l'.
Proof. induction l as [|a l IH]; [reflexivity|]. cbn. destruct (f a); cbn; now rewrite IH. Qed.
Lemma raws_app a c : raws (a ++ c) = raws a ++ raws c.
Proof. unfold raws. now rewrite flat_map_app, filter_app'. Qed.
Lemma ne_true s : ne s = true -> b s <> [].
Proof. destruct s; [discriminate|]. intros _. discriminate. Qed.
Lemma raws_nil ps : bytes_of ps = [] -> raws ps = [].
Proof.
  induction ps as [|p ps IH]; [reflexivity|]. cbn. intros E. apply app_eq_nil in E as [E1 E2]. specialize (IH E2). unfold raws in *. destruct p; cbn [raw flat_map app filter] in *; try exact IH.
  destruct (ne s) eqn:N; [|exact IH]. now apply ne_true in N.
Qed.

(** ** Calls that only write *)
Definition kept (h h' : hst) : Prop :=
  raws (alt h') = raws (alt h) /\ notes h' = notes h /\ (f_term (fl h) = false -> f_term (fl h') = false) /\ dm h' = dm h /\ in_cell h' = in_cell h.
Definition grow (c : cmd) : Prop := forall h h', c h = Ret h' -> exists ps, html h' = html h ++ ps /\ kept h h'.
Lemma kept_refl h : kept h h.
Proof. repeat split. auto. Qed.
Lemma kept_trans h1 h2 h3 : kept h1 h2 -> kept h2 h3 -> kept h1 h3.
Proof. intros (A1 & A2 & A3 & A4 & A5) (B1 & B2 & B3 & B4 & B5). repeat split; try congruence. auto. Qed.
Lemma grow_bind c e : grow c -> grow e -> grow (bind c e).
Proof.
  intros F G h h' E. unfold bind in E. destruct (c h) as [s|] eqn:C; [|discriminate E]. destruct (F _ _ C) as (p & H & K), (G _ _ E) as (q & H' & K').
  exists (p ++ q). split; [now rewrite H', H, app_assoc|]. now apply kept_trans with s.
Qed.
Lemma grow_cons c l : grow c -> grow (all l) -> grow (all (c :: l)).
Proof. apply grow_bind. Qed.
Lemma grow_same g : (forall s, html (g s) = html s /\ kept s (g s)) -> grow (ok g).
Proof. intros H h h' E. injection E as <-. exists []. rewrite app_nil_r. apply H. Qed.
Lemma grow_nothing : grow nothing.
Proof. intros h h' E. injection E as <-. exists []. rewrite app_nil_r. split; [reflexivity|apply kept_refl]. Qed.
Lemma grow_put ps : grow (put ps).
Proof. intros h h' E. injection E as <-. exists ps. split; [reflexivity|]. repeat split. auto. Qed.
Lemma grow_look f : (forall s, grow (f s)) -> grow (look f).
Proof. intros H h h' E. exact (H h h h' E). Qed.
Lemma grow_panic : grow (fun _ => Panic).
Proof. intros h h' E. discriminate E. Qed.
Lemma grow_flags f : (forall x, f_term x = false -> f_term (f x) = false) -> grow (change_flags f).
Proof. intros H. apply grow_same. intros s. split; [reflexivity|]. repeat split. apply H. Qed.
Ltac gr :=
  lazymatch goal with
  | |- grow (bind _ _) => apply grow_bind; gr
  | |- grow (all (_ :: _)) => apply grow_cons; gr
  | |- grow (all []) => apply grow_nothing
  | |- grow nothing => apply grow_nothing
  | |- grow Ret => apply grow_nothing
  | |- grow (put _) => apply grow_put
  | |- grow (look _) => apply grow_look; let s := fresh in intros s; cbv beta zeta; gr
  | |- grow (fun _ => Panic) => apply grow_panic
  | |- grow (ok _) => apply grow_same; let s := fresh in intros s; unfold kept; repeat match goal with |- context [if ?c then _ else _] => destruct c end; repeat split; auto
  | |- grow (change_flags _) => apply grow_flags; let x := fresh in intros x; repeat match goal with |- context [if ?c then _ else _] => destruct c end; cbn; auto
  | |- grow (if ?c then _ else _) => let E := fresh in destruct c eqn:E; gr
  | |- grow (match ?c with _ => _ end) => let E := fresh in destruct c eqn:E; gr
  | |- grow (let _ := _ in _) => cbv zeta; gr
  | |- grow ?c => let h := head_of c in unfold h; cbv beta; gr
  end
with head_of c := lazymatch c with ?f _ => head_of f | _ => c end.

Section Calls.
  Context (D : details) (debug : bool).
  (** the other buffer is left as it is *)
  Definition leaves (c : cmd) : Prop := forall h h', c h = Ret h' -> alt h' = alt h.
  Lemma leaves_bind c e : leaves c -> leaves e -> leaves (bind c e).
  Proof. intros F G h h' E. unfold bind in E. destruct (c h) as [s|] eqn:C; [|discriminate E]. rewrite (G _ _ E). now apply F. Qed.
  Lemma leaves_cons c l : leaves c -> leaves (all l) -> leaves (all (c :: l)).
  Proof. apply leaves_bind. Qed.
  Lemma leaves_look f : (forall s, leaves (f s)) -> leaves (look f).
  Proof. intros H h h' E. exact (H h h h' E). Qed.
  Lemma leaves_ok g : (forall s, alt (g s) = alt s) -> leaves (ok g).
  Proof. intros H h h' E. injection E as <-. apply H. Qed.
  Lemma leaves_nothing : leaves nothing.
  Proof. intros h h' E. now injection E as <-. Qed.
  Lemma leaves_panic : leaves (fun _ => Panic).
  Proof. intros h h' E. discriminate E. Qed.
  Ltac lv :=
    lazymatch goal with
    | |- leaves (bind _ _) => apply leaves_bind; lv
    | |- leaves (all (_ :: _)) => apply leaves_cons; lv
    | |- leaves (all []) => apply leaves_nothing
    | |- leaves nothing => apply leaves_nothing
    | |- leaves (put _) => apply leaves_ok; reflexivity
    | |- leaves (look _) => apply leaves_look; let s := fresh in intros s; cbv beta zeta; lv
    | |- leaves (fun _ => Panic) => apply leaves_panic
    | |- leaves (ok _) => apply leaves_ok; let s := fresh in intros s; repeat match goal with |- context [if ?c then _ else _] => destruct c end; reflexivity
    | |- leaves (if ?c then _ else _) => destruct c; lv
    | |- leaves (match ?c with _ => _ end) => destruct c; lv
    | |- leaves ?c => let h := head_of c in unfold h; cbv beta; lv
    end.
  (** ** Calls that write the title that is kept in the other buffer, if the block has one *)
  Definition shows (d : nat) (c : cmd) : Prop := forall h h', c h = Ret h' ->
    exists ps qs, html h' = html h ++ ps ++ (if n_title D d then alt h else []) ++ qs /\ alt h' = (if n_title D d then [] else alt h) /\ kept (set_bufs (html h) (alt h') h) h'.
  Lemma shows_r d c e : grow c -> shows d e -> leaves c -> shows d (bind c e).
  Proof.
    intros F G A h h' E. unfold bind in E. destruct (c h) as [s|] eqn:C; [|discriminate E]. destruct (F _ _ C) as (p & H & K), (G _ _ E) as (ps & qs & H1 & H2 & K').
    rewrite (A _ _ C) in *. exists (p ++ ps), qs. split; [now rewrite H1, H, !app_assoc|]. split; [exact H2|]. destruct K as (K1 & K2 & K3 & K4 & K5), K' as (J1 & J2 & J3 & J4 & J5). cbn in *.
    repeat split; cbn in *; try congruence. auto.
  Qed.
  Lemma shows_l d c e : shows d c -> grow e -> leaves e -> shows d (bind c e).
  Proof.
    intros F G A h h' E. unfold bind in E. destruct (c h) as [s|] eqn:C; [|discriminate E]. destruct (F _ _ C) as (ps & qs & H1 & H2 & K), (G _ _ E) as (p & H & K').
    exists ps, (qs ++ p). split; [now rewrite H, H1, !app_assoc|]. rewrite (A _ _ E). split; [exact H2|]. destruct K as (K1 & K2 & K3 & K4 & K5), K' as (J1 & J2 & J3 & J4 & J5). cbn in *.
    repeat split; cbn in *; try congruence. auto.
  Qed.
  Lemma shows_cons_r d c l : grow c -> shows d (all l) -> leaves c -> shows d (all (c :: l)).
  Proof. apply shows_r. Qed.
  Lemma shows_cons_l d c l : shows d c -> grow (all l) -> leaves (all l) -> shows d (all (c :: l)).
  Proof. apply shows_l. Qed.
  Lemma shows_block_title title d : forall h h', render_block_title D title d h = Ret h' -> exists ps qs, html h' = html h ++ ps ++ title ++ qs /\ alt h' = alt h /\ kept h h'.
  Proof.
    intros h h' E. unfold render_block_title, look in E. cbv zeta in E. set (o := if is_table D d then [Lit "<caption class=""title"">"] else _) in E. set (z := if is_table D d then [Lit "</caption>"] else _) in E.
    assert (P : forall mid, put (o ++ (mid ++ title) ++ z) h = Ret h' -> exists ps qs, html h' = html h ++ ps ++ title ++ qs /\ alt h' = alt h /\ kept h h').
    { intros mid X. injection X as <-. exists (o ++ mid), z. split; [cbn; now rewrite <- !app_assoc|]. split; [reflexivity|]. repeat split. auto. }
    destruct (n_named D d "caption") as [c|]; [now apply (P [Raw c])|]. destruct (caption_name (n_context D d)) as [k|]; [|now apply (P [])].
    destruct (m_str (dm h) k) as [c|]; [|now apply (P [])]. cbn in E. injection E as <-. exists (o ++ [Raw c; Lit " "; Num (next_caption (captions h) k); Lit ". "]), z. cbn.
    split; [rewrite <- !app_assoc; reflexivity|]. split; [reflexivity|]. repeat split. auto.
  Qed.
  Lemma shows_buffered d : shows d (render_buffered_block_title D d).
  Proof.
    intros h h' E. unfold render_buffered_block_title in E. destruct (n_title D d).
    - unfold look, bind, discard_alt_buffer, ok in E. destruct (shows_block_title _ _ _ _ E) as (ps & qs & H & A & K). exists ps, qs. cbn in *. split; [exact H|]. split; [exact A|].
      rewrite A. exact K.
    - injection E as <-. exists [], []. cbn. rewrite app_nil_r. split; [reflexivity|]. split; [reflexivity|]. repeat split. auto.
  Qed.
  Ltac sh :=
    lazymatch goal with
    | |- shows _ (render_buffered_block_title _ _) => apply shows_buffered
    | |- shows _ (bind (render_buffered_block_title _ _) _) => apply shows_l; [apply shows_buffered|gr|lv]
    | |- shows _ (all (render_buffered_block_title _ _ :: _)) => apply shows_cons_l; [apply shows_buffered|gr|lv]
    | |- shows _ (all (_ :: _)) => apply shows_cons_r; [gr|sh|lv]
    | |- shows _ (if ?c then _ else _) => destruct c; sh
    | |- shows _ (match ?c with _ => _ end) => destruct c; sh
    | |- shows _ (bind (bind _ _) _) => apply shows_l; [sh|gr|lv]
    | |- shows _ (bind (if _ then _ else _) _) => apply shows_l; [sh|gr|lv]
    | |- shows _ (bind _ _) => apply shows_r; [gr|sh|lv]
    end.
  Lemma shows_look d f : (forall s, shows d (f s)) -> shows d (look f).
  Proof. intros H h h' E. exact (H h h h' E). Qed.
  Lemma shows_sidebar d : shows d (enter_sidebar_block D d).
  Proof. unfold enter_sidebar_block. sh. Qed.
  Lemma shows_listing d : shows d (enter_listing_block D d).
  Proof. unfold enter_listing_block. sh. Qed.
  Lemma shows_literal d : shows d (enter_literal_block D d).
  Proof. unfold enter_literal_block. sh. Qed.
  Lemma shows_quote d : shows d (enter_quote_block D d).
  Proof. unfold enter_quote_block. sh. Qed.
  Lemma shows_verse d : shows d (enter_verse_block D d).
  Proof. unfold enter_verse_block. sh. Qed.
  Lemma shows_open d : shows d (enter_open_block D d).
  Proof. unfold enter_open_block. sh. Qed.
  Lemma shows_admonition k d : shows d (enter_admonition_block D k d).
  Proof. unfold enter_admonition_block. sh. Qed.
  Lemma shows_unordered d : shows d (enter_unordered_list D d).
  Proof. unfold enter_unordered_list. apply shows_look. intros s. cbv zeta. sh. Qed.
  Lemma shows_dlist d : shows d (enter_description_list D d).
  Proof. unfold enter_description_list. sh. Qed.
  Lemma shows_panic d : shows d (fun _ => Panic).
  Proof. intros h h' E. discriminate E. Qed.
  Lemma shows_ordered d n : shows d (enter_ordered_list D debug d n).
  Proof. unfold enter_ordered_list. apply shows_look. intros s. destruct (debug && _); [apply shows_panic|]. cbv zeta. sh. Qed.
  Lemma shows_table tb d : shows d (enter_table D tb d).
  Proof. unfold enter_table. apply shows_look. intros s. cbv zeta. sh. Qed.
  Lemma shows_audio d : shows d (visit_audio_macro D d).
  Proof. unfold visit_audio_macro. sh. Qed.
  Lemma shows_video d : shows d (visit_video_macro D d).
  Proof. unfold visit_video_macro. sh. Qed.
  Lemma shows_ext d c c' : (forall h, c h = c' h) -> shows d c' -> shows d c.
  Proof. intros X H h h' E. rewrite X in E. now apply H. Qed.
  Lemma pop_open x q : pop_byte (x ++ q ++ [Lit ">"]) = x ++ q ++ [Lit ""].
  Proof. unfold pop_byte. rewrite app_assoc, rev_app_distr. cbn. now rewrite rev_involutive, <- app_assoc. Qed.
  Lemma shows_summary d : shows d (if n_title D d then look (fun s => bind discard_alt_buffer (put (alt s))) else put [Lit "Details"]).
  Proof.
    intros h h' E. destruct (n_title D d); injection E as <-.
    - exists [], []. cbn. rewrite app_nil_r. repeat split. auto.
    - exists [], [Lit "Details"]. cbn. repeat split. auto.
  Qed.
  Lemma shows_example d : shows d (enter_example_block D d).
  Proof.
    unfold enter_example_block. destruct (n_option D d "collapsible"); [|sh].
    apply shows_l; [|gr|lv]. assert (X : exists x, open_element D "details" [] d = x ++ [Lit ">"]) by (unfold open_element, o_finish; eexists; reflexivity). destruct X as [x X]. rewrite X. set (t := x ++ [Lit ">"]). set (o := if n_option D d "open" then _ else _).
    apply shows_ext with (bind (bind (put t) o) (all [put [Lit "<summary class=""title"">"]; if n_title D d then look (fun s => bind discard_alt_buffer (put (alt s))) else put [Lit "Details"]; put [Lit "</summary>"]])).
    { intros h. cbn [all]. unfold bind. destruct (put t h) as [h1|]; [|reflexivity]. destruct (o h1); reflexivity. }
    apply shows_r.
    - intros h h' E. unfold o in E. destruct (n_option D d "open"); injection E as <-.
      + unfold t. cbn. rewrite pop_open. exists (x ++ [Lit ""; Lit " open>"]). rewrite <- !app_assoc. split; [reflexivity|]. repeat split. auto.
      + exists t. split; [reflexivity|]. repeat split. auto.
    - apply shows_cons_r; [gr| |lv]. apply shows_cons_l; [apply shows_summary|gr|lv].
    - unfold o. lv.
  Qed.
  (** ** What has been written *)
  (** [xs], [ys] and [zs] are among the texts of the output, of the footnotes and of the other buffer, in their order *)
  Definition P (term top : bool) (R : meta -> Prop) (xs ys zs : list string) (h : hst) : Prop :=
    sub xs (raws (html h)) /\ sub ys (flat_map (fun n => raws (snd n)) (notes h)) /\ sub zs (raws (alt h)) /\
    (term = false -> f_term (fl h) = false) /\ R (dm h) /\ (top = true -> in_cell h = false).
  Section At.
    Context (term top : bool) (R : meta -> Prop).
    Notation P := (P term top R).
    Lemma tri_grow xs ys zs c : grow c -> tri (P xs ys zs) c (P xs ys zs).
    Proof.
      intros G h h' (H1 & H2 & H3 & H4 & H5 & H6) E. destruct (G _ _ E) as (ps & Hh & K1 & K2 & K3 & K4 & K5).
      split; [rewrite Hh, raws_app; now apply sub_more|]. split; [now rewrite K2|]. split; [now rewrite K1|]. split; [auto|]. split; [now rewrite K4|]. rewrite K5. exact H6.
    Qed.
    Lemma tri_text xs ys zs s : tri (P xs ys zs) (put [Raw s]) (P (xs ++ filter ne [s]) ys zs).
    Proof. intros h h' (H1 & H) E. injection E as <-. split; [|exact H]. cbn [html set_html]. rewrite raws_app. apply sub_app; [exact H1|]. apply sub_refl. Qed.
    Lemma tri_shows d xs ys zs c : shows d c -> n_title D d = true -> tri (P xs ys zs) c (P (xs ++ zs) ys []).
    Proof.
      intros G T h h' (H1 & H2 & H3 & H4 & H5 & H6) E. destruct (G _ _ E) as (ps & qs & Hh & Ha & K1 & K2 & K3 & K4 & K5). rewrite T in *. cbn in *.
      split. { rewrite Hh, !raws_app. apply sub_app; [exact H1|]. apply sub_after. now apply sub_more. }
      split; [now rewrite K2|]. split; [constructor|]. split; [auto|]. split; [now rewrite K4|]. rewrite K5. exact H6.
    Qed.
    Lemma tri_shows_none d xs ys c : shows d c -> tri (P xs ys []) c (P xs ys []).
    Proof.
      intros G h h' (H1 & H2 & H3 & H4 & H5 & H6) E. destruct (G _ _ E) as (ps & qs & Hh & Ha & K1 & K2 & K3 & K4 & K5). cbn in *.
      split; [rewrite Hh, raws_app; now apply sub_more|].
      split; [now rewrite K2|]. split; [constructor|]. split; [auto|]. split; [now rewrite K4|]. rewrite K5. exact H6.
    Qed.
    (** titles *)
    Lemma tri_start xs ys : tri (P xs ys []) (start_buffering debug) (P [] ys xs).
    Proof. intros h h' (H1 & H2 & H3 & H4) E. unfold start_buffering, look in E. destruct (debug && _); [discriminate E|]. injection E as <-. split; [constructor|]. split; [exact H2|]. split; [exact H1|exact H4]. Qed.
    Lemma tri_title_end d xs ys zs : n_context D d <> XPassthrough -> tri (P zs ys xs) (exit_meta_title D d) (P xs ys zs).
    Proof.
      intros N. unfold exit_meta_title, is_passthrough. destruct (n_context D d); try congruence; intros h h' (H1 & H2 & H3 & H4) E; injection E as <-; (split; [exact H3|]; split; [exact H2|]; split; [exact H1|exact H4]).
    Qed.
    Lemma tri_discard xs ys zs : tri (P zs ys xs) swap_discard_alt_buffer (P xs ys []).
    Proof. intros h h' (H1 & H2 & H3 & H4) E. injection E as <-. split; [exact H3|]. split; [exact H2|]. split; [constructor|exact H4]. Qed.
    (** footnotes *)
    Lemma prev_none i l : prev_num i l None = None.
    Proof. revert i. induction l as [|[[p|] t] l IH]; intros i; cbn; auto. Qed.
    Lemma tri_note d xs ys : tri (P xs ys []) (enter_footnote D debug d) (P [] ys xs).
    Proof. unfold enter_footnote. apply tri_look. intros s _. eapply tri_bind; [|apply tri_start]. apply tri_grow. gr. Qed.
    Lemma tri_note' d xs ys zs : tri (P zs ys xs) (exit_footnote D d) (P xs (ys ++ if some (n_id D d) then [] else zs) []).
    Proof.
      intros h h' (H1 & H2 & H3 & H4) E. unfold exit_footnote, look in E. destruct (prev_num 1 (notes h) (n_id D d)) as [n|] eqn:N.
      - destruct (n_id D d) as [i|]; [|now rewrite prev_none in N]. cbn [some]. rewrite app_nil_r. injection E as <-. split; [exact H3|]. split; [exact H2|]. split; [constructor|exact H4].
      - injection E as <-. split; [cbn [html set_html set_notes set_bufs]; rewrite raws_app; now apply sub_more|]. split; [|split; [constructor|exact H4]].
        cbn [notes set_html set_notes set_bufs]. rewrite flat_map_app. apply sub_app; [exact H2|]. cbn. rewrite app_nil_r. destruct (some (n_id D d)); [constructor|exact H1].
    Qed.
    (** paragraphs *)
    Lemma tri_paragraph d xs ys zs : n_title D d = true -> term = false -> (forall m, R m -> m_doctype m <> Inline) -> tri (P xs ys zs) (enter_paragraph_block D d) (P (xs ++ zs) ys []).
    Proof.
      intros T F I h h' H E. unfold enter_paragraph_block, look in E. pose proof H as (_ & _ & _ & H4 & H5 & _). rewrite (H4 F) in E. apply I in H5. destruct (doctype_eqb (m_doctype (dm h)) Inline) eqn:Q; [destruct (m_doctype (dm h)); discriminate Q || congruence|].
      refine (tri_shows d xs ys zs _ _ T h h' H E). sh.
    Qed.
    Lemma tri_paragraph_none d xs ys : tri (P xs ys []) (enter_paragraph_block D d) (P xs ys []).
    Proof.
      unfold enter_paragraph_block. apply tri_look. intros s _. destruct (doctype_eqb _ _); [apply tri_nothing|]. destruct (f_term (fl s)); [apply tri_grow; gr|]. apply tri_shows_none with d. sh.
    Qed.
    (** images *)
    Lemma tri_image e d xs ys zs : n_title D d = true -> n_named D e "title" = None -> tri (P xs ys zs) (exit_image_block D e d) (P (xs ++ zs) ys []).
    Proof. intros T N. unfold exit_image_block. rewrite N. apply tri_shows with d; [sh|exact T]. Qed.
    Lemma tri_image_none e d xs ys : tri (P xs ys []) (exit_image_block D e d) (P xs ys []).
    Proof.
      unfold exit_image_block. destruct (n_named D e "title") as [t|]; [|apply tri_shows_none with d; sh]. eapply tri_bind; [|apply tri_grow; gr]. eapply tri_bind.
      - apply tri_grow. intros h h' E. destruct (shows_block_title _ _ _ _ E) as (ps & qs & H & _ & K). eexists. split; [exact H|exact K].
      - destruct (n_title D d); [|apply tri_nothing]. intros h h' (H1 & H2 & H3 & H4) E. injection E as <-. split; [exact H1|]. split; [exact H2|]. split; [constructor|exact H4].
    Qed.
    Lemma grow_image d : grow (visit_image_macro D d).
    Proof.
      intros h h' E. unfold visit_image_macro, look in E. cbv zeta in E. set (link := match n_named D d "link" with Some l => _ | None => None end) in *. set (selfish := match link with Some l => _ | None => false end) in *.
      destruct selfish; cbn [andb] in E.
      - destruct (is_nil (alt h)) eqn:N; [|discriminate E]. cbn [negb] in E. injection E as <-. cbn. rewrite <- !app_assoc. eexists. split; [reflexivity|].
        repeat split; auto. cbn. unfold is_nil in N. destruct (bytes_of (alt h)) eqn:B; [|discriminate N]. now rewrite (raws_nil _ B).
      - revert E. match goal with |- ?c h = _ -> _ => assert (G : grow c) by gr end. apply G.
    Qed.
    (** leaves *)
    Lemma grow_leaf call d : existsb (String.eqb call) leaf_calls = true -> grow (HtmlModel.call D debug (Visit call d "")).
    Proof.
      intros H. apply existsb_exists in H as (k & H & E). apply String.eqb_eq in E. subst k. cbn [In leaf_calls] in H.
      repeat (destruct H as [<-|H];
        [cbn [HtmlModel.call]; match goal with |- grow (match ?h with _ => _ end) => let v := eval lazy [handler visits String.eqb Ascii.eqb Bool.eqb] in h in change h with v end; cbv beta iota;
         first [apply grow_image | gr]|]).
      contradiction H.
    Qed.
    (** the table of contents, sections, tables *)
  End At.
End Calls.
