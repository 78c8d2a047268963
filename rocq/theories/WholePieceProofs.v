(** The pieces of a text of words, and that the lexer reads them (C67). *)
From Verif Require Import Base Utf8 LexerModel LexerSpec LexerProofs LineModel InlineModel InlineSpec WholeModel WholeSpec WholeLexProofs.
Import ListNotations.
Open Scope list_scope.
Open Scope nat_scope.

Fixpoint sepj (sep : piece) (l : list (list piece)) : list piece := match l with [] => [] | [x] => x | x :: r => x ++ sep :: sepj sep r end.
Definition space : piece := (Whitespace, $" ").
Definition word_piece (w : bytes) : piece := (if a_name w then Word else Digits, w).
Definition words_pieces (ws : list bytes) : list piece := sepj space (map (fun w => [(Word, w)]) ws).
Definition phrase_pieces (p : phrase) : list piece :=
  match p with
  | Plain w => [word_piece w]
  | Special c => [(special_kind_of c, [c])]
  | Marked s ws => (mark_kind s, mark s) :: words_pieces ws ++ [(mark_kind s, mark s)]
  end.
Definition punct_pieces (x : bytes) : list piece := map (fun c => (punct_kind c, [c])) x.
Definition item_pieces (i : item) : list piece := phrase_pieces (fst i) ++ punct_pieces (snd i).
Definition line_pieces (l : line) : list piece := sepj space (map item_pieces l).
Definition doc_pieces (ls : list line) : list piece := sepj (Newline, newline) (map line_pieces ls).

Lemma flat_app x y : flat (x ++ y) = flat x ++ flat y.
Proof. unfold flat. now rewrite map_app, concat_app. Qed.
Lemma flat_cons k x r : flat ((k, x) :: r) = x ++ flat r.
Proof. reflexivity. Qed.
Lemma flat_sepj sep l : flat (sepj sep l) = join (snd sep) (map flat l).
Proof. induction l as [|x [|y l] IH]; [reflexivity..|]. change (sepj sep (x :: y :: l)) with (x ++ sep :: sepj sep (y :: l)). rewrite flat_app. destruct sep as [k s]. rewrite flat_cons, IH. reflexivity. Qed.
Lemma flat_punct x : flat (punct_pieces x) = x.
Proof. induction x as [|c x IH]; [reflexivity|]. cbn [punct_pieces map]. rewrite flat_cons. fold (punct_pieces x). now rewrite IH. Qed.
Lemma flat_words ws : flat (words_pieces ws) = join ($" ") ws.
Proof. unfold words_pieces. rewrite flat_sepj, map_map. cbn [snd space]. f_equal. rewrite <- (map_id ws) at 2. apply map_ext. intros w. unfold flat. cbn. apply app_nil_r. Qed.
Lemma flat_phrase p : flat (phrase_pieces p) = phrase_source p.
Proof.
  destruct p as [w|c|s ws]; [unfold flat; cbn; apply app_nil_r|reflexivity|]. cbn [phrase_pieces phrase_source]. rewrite flat_cons, flat_app, flat_words. unfold flat. cbn. now rewrite app_nil_r.
Qed.
Lemma flat_item i : flat (item_pieces i) = phrase_source (fst i) ++ snd i.
Proof. unfold item_pieces. now rewrite flat_app, flat_phrase, flat_punct. Qed.
Lemma flat_line l : flat (line_pieces l) = line_source l.
Proof. unfold line_pieces, line_source. rewrite flat_sepj, map_map. f_equal. apply map_ext. apply flat_item. Qed.
Lemma flat_doc ls : flat (doc_pieces ls) = source ls.
Proof. unfold doc_pieces, source. rewrite flat_sepj, map_map. f_equal. apply map_ext. apply flat_line. Qed.

(** ** First bytes *)
Lemma ascii_name w : a_name w = true -> Forall (fun c => ascii7 c = true) w.
Proof.
  intros H. apply a_name_inv in H as (c & r & -> & L & A). assert (Q : forall c, a_letter c || a_digit c = true -> ascii7 c = true).
  { intros d D. assert (F := by_byte (fun c => implb (a_letter c || a_digit c) (ascii7 c)) eq_refl d). cbn beta in F. now rewrite D in F. }
  constructor; [apply Q; now rewrite L|]. eapply Forall_impl; [|exact A]. exact Q.
Qed.
Lemma ascii_number w : a_number w = true -> Forall (fun c => ascii7 c = true) w.
Proof.
  destruct w as [|c w]; [discriminate|]. unfold a_number. intros H. rewrite forallb_forall in H. apply Forall_forall. intros d I. specialize (H d I).
  assert (F := by_byte (fun c => implb (a_digit c) (ascii7 c)) eq_refl d). cbn beta in F. now rewrite H in F.
Qed.
(** a phrase does not start with white space *)
Definition solid (x : bytes) : Prop := exists c t, x = c :: t /\ mem c ws_bytes = false.
Lemma solid_app x y : solid x -> solid (x ++ y).
Proof. intros (c & t & -> & M). now exists c, (t ++ y). Qed.
Lemma solid_name w : a_name w = true -> solid w.
Proof. intros H. apply a_name_inv in H as (c & r & -> & L & _). exists c, r. split; [reflexivity|]. assert (F := by_byte (fun c => implb (a_letter c) (negb (mem c ws_bytes))) eq_refl c). cbn beta in F. rewrite L in F. now apply negb_true_iff. Qed.
Lemma solid_number w : a_number w = true -> solid w.
Proof.
  destruct w as [|c r]; [discriminate|]. unfold a_number. cbn [forallb]. intros H. apply andb_true_iff in H as [L _]. exists c, r. split; [reflexivity|].
  assert (F := by_byte (fun c => implb (a_digit c) (negb (mem c ws_bytes))) eq_refl c). cbn beta in F. rewrite L in F. now apply negb_true_iff.
Qed.
Lemma solid_phrase p : phrase_ok p = true -> solid (phrase_source p).
Proof.
  destruct p as [w|c|s ws]; cbn [phrase_ok phrase_source].
  - intros H. apply orb_true_iff in H as [H|H]; [now apply solid_name|now apply solid_number].
  - intros H. apply among in H. cbn [In] in H. exists c, []. split; [reflexivity|]. decompose [or] H; try contradiction; subst; reflexivity.
  - intros _. apply solid_app. destruct s; (eexists; eexists; split; [reflexivity|reflexivity]).
Qed.
Definition item_ok (i : item) : bool := phrase_ok (fst i) && punctuation_ok (snd i).
Lemma solid_item i : item_ok i = true -> solid (flat (item_pieces i)).
Proof. intros H. apply andb_true_iff in H as [H _]. rewrite flat_item. apply solid_app. now apply solid_phrase. Qed.

(** ** Reading the pieces *)
Section Read.
Variable plugins : list bytes.
Notation scans := (scans plugins).
Lemma scans_space prev x rest : solid x -> scan plugins prev (starts_line prev) ($" " ++ x ++ rest) = Ret (Some (mkRaw Whitespace 0 (length ($" ")) (length ($" ")))).
Proof. intros (c & t & -> & M). cbn [app]. now apply s_space. Qed.
Lemma join_cons sep x y l : join sep (x :: y :: l) = x ++ sep ++ join sep (y :: l).
Proof. reflexivity. Qed.
Lemma stop_space r : stop ($" " ++ r). Proof. reflexivity. Qed.
Lemma scans_words ws : forall prev rest, ws <> [] -> forallb a_name ws = true -> stop rest -> scans prev (words_pieces ws) rest.
Proof.
  induction ws as [|w ws IH]; intros prev rest NE A S; [easy|]. cbn [forallb] in A. apply andb_true_iff in A as [N A].
  assert (W : w <> []) by (intros ->; discriminate N). destruct ws as [|w2 ws].
  - cbn [words_pieces map sepj]. cbn [WholeLexProofs.scans]. repeat split; auto using ascii_name; [discriminate|]. rewrite s_name by assumption. reflexivity.
  - change (words_pieces (w :: w2 :: ws)) with ([(Word, w)] ++ space :: words_pieces (w2 :: ws)). cbn [app]. cbn [WholeLexProofs.scans space].
    split; [exact W|]. split; [now apply ascii_name|]. split; [discriminate|]. split; [apply s_name; [exact N|reflexivity]|].
    split; [discriminate|]. split; [repeat constructor|]. split; [discriminate|]. split.
    + apply scans_space. rewrite flat_words. cbn [join]. cbn [forallb] in A. apply andb_true_iff in A as [N2 _]. destruct ws; [|apply solid_app]; now apply solid_name.
    + apply IH; [discriminate|exact A|exact S].
Qed.
Lemma scans_punct x : forall prev rest, punctuation_ok x = true -> tail rest -> scans prev (punct_pieces x) rest.
Proof.
  intros prev rest H T. destruct x as [|c [|d x]]; [exact I| |discriminate H]. cbn [punct_pieces map WholeLexProofs.scans]. cbn [punctuation_ok] in H. repeat split; try discriminate.
  - constructor; [|constructor]. apply among in H. cbn [In] in H. decompose [or] H; try contradiction; subst; reflexivity.
  - apply among in H. cbn [In] in H. decompose [or] H; try contradiction; subst; discriminate.
  - apply (s_punct plugins prev _ c rest); assumption.
Qed.
Lemma stop_punct x rest : punctuation_ok x = true -> tail rest -> stop (x ++ rest).
Proof. intros H T. destruct x as [|c [|d x]]; [now apply stop_tail| |discriminate H]. cbn [app stop]. cbn [punctuation_ok] in H. apply among in H. cbn [In] in H. decompose [or] H; try contradiction; subst; reflexivity. Qed.
Lemma mark_nonempty s : mark s <> [] /\ Forall (fun c => ascii7 c = true) (mark s) /\ mark_kind s <> MaybeEmail /\ length (mark s) = 1.
Proof. destruct s; repeat split; try discriminate; repeat constructor. Qed.
Lemma scans_phrase p x : forall prev rest, phrase_ok p = true -> punctuation_ok x = true -> tail rest -> scans prev (phrase_pieces p) (x ++ rest).
Proof.
  intros prev rest H X T. destruct p as [w|c|s ws]; cbn [phrase_pieces phrase_ok] in *.
  - cbn [word_piece WholeLexProofs.scans flat map concat app]. destruct (a_name w) eqn:N.
    + repeat split; try discriminate; [now intros ->|now apply ascii_name|]. apply s_name; [exact N|now apply stop_punct].
    + cbn [orb] in H. repeat split; try discriminate; [now intros ->|now apply ascii_number|]. apply s_number; [exact H|now apply stop_punct].
  - cbn [WholeLexProofs.scans flat map concat app]. repeat split; try discriminate.
    + constructor; [|constructor]. apply among in H. cbn [In] in H. decompose [or] H; try contradiction; subst; reflexivity.
    + apply among in H. cbn [In] in H. decompose [or] H; try contradiction; subst; discriminate.
    + now apply (s_special plugins prev _ c x rest).
  - assert (WS : ws <> [] /\ forallb a_name ws = true) by (destruct ws; [discriminate H|split; [discriminate|exact H]]). destruct WS as [NE A].
    destruct (mark_nonempty s) as (M1 & M2 & M3 & M4). cbn [WholeLexProofs.scans]. rewrite M4. split; [exact M1|]. split; [exact M2|]. split; [exact M3|].
    rewrite flat_app, flat_words. split.
    { apply s_mark. intros c t E. destruct ws as [|w ws]; [easy|]. cbn [forallb] in A. apply andb_true_iff in A as [N _]. apply a_name_inv in N as (d & r & -> & L & _).
      assert (D : c = d). { destruct ws; cbn in E; now injection E. } subst d.
      assert (F := by_byte (fun c => implb (a_letter c) (negb (Ascii.eqb c "*") && negb (Ascii.eqb c "_") && negb (Ascii.eqb c "`"))) eq_refl c). cbn beta in F. rewrite L in F. cbn [implb] in F.
      rewrite !andb_true_iff, !negb_true_iff in F. destruct s; tauto. }
    apply scans_app. split.
    + unfold flat. cbn [map concat snd]. rewrite app_nil_r. apply scans_words; [exact NE|exact A|]. destruct s; reflexivity.
    + cbn [WholeLexProofs.scans flat map concat app]. rewrite M4. repeat split; auto. apply s_mark. intros c t E. pose proof (stop_punct x rest X T) as S.
      destruct x as [|d [|d' x]]; [| |discriminate X]; cbn [app] in E.
      * subst rest. cbn [tail] in T. apply among in T. cbn [In] in T. decompose [or] T; try contradiction; subst c; destruct s; reflexivity.
      * injection E as -> _. cbn [punctuation_ok] in X. apply among in X. cbn [In] in X. decompose [or] X; try contradiction; subst c; destruct s; reflexivity.
Qed.
Lemma scans_item i prev rest : item_ok i = true -> tail rest -> scans prev (item_pieces i) rest.
Proof.
  intros H T. apply andb_true_iff in H as [H X]. unfold item_pieces. apply scans_app. rewrite flat_punct. split; [now apply scans_phrase|]. now apply scans_punct.
Qed.
Lemma scans_line l : forall prev rest, forallb item_ok l = true -> tail rest -> scans prev (line_pieces l) rest.
Proof.
  induction l as [|i l IH]; intros prev rest H T; [exact I|]. cbn [forallb] in H. apply andb_true_iff in H as [I H]. destruct l as [|j l].
  - cbn [line_pieces map sepj]. now apply scans_item.
  - change (line_pieces (i :: j :: l)) with (item_pieces i ++ space :: line_pieces (j :: l)). apply scans_app. split; [apply scans_item; [exact I|reflexivity]|].
    cbn [WholeLexProofs.scans space]. split; [discriminate|]. split; [repeat constructor|]. split; [discriminate|]. split; [|now apply IH].
    apply scans_space. cbn [forallb] in H. apply andb_true_iff in H as [J _]. pose proof (solid_item j J) as SJ. rewrite flat_line. unfold line_source. cbn [map join]. rewrite <- flat_item. destruct l; [exact SJ|now apply solid_app].
Qed.
Lemma scans_doc ls : forall prev, forallb (forallb item_ok) ls = true -> scans prev (doc_pieces ls) [].
Proof.
  induction ls as [|l ls IH]; intros prev H; [exact I|]. cbn [forallb] in H. apply andb_true_iff in H as [L H]. destruct ls as [|m ls].
  - cbn [doc_pieces map sepj]. now apply scans_line.
  - change (doc_pieces (l :: m :: ls)) with (line_pieces l ++ (Newline, newline) :: doc_pieces (m :: ls)). apply scans_app. split; [apply scans_line; [exact L|reflexivity]|].
    cbn [WholeLexProofs.scans]. split; [discriminate|]. split; [repeat constructor|]. split; [discriminate|]. split; [apply s_newline|now apply IH].
Qed.

(** ** The lines of tokens *)
(** the tokens of the lines, each laid out where it stands *)
Fixpoint lines_at (p : nat) (prev : option ascii) (ls : list line) : list (list tok) :=
  match ls with
  | [] => []
  | [l] => match lay p prev (line_pieces l) with [] => [] | ts => [ts] end
  | l :: r => lay p prev (line_pieces l) :: lines_at (p + length (line_source l) + 1) (Some LF) r
  end.
Lemma not_newline p : forall prev l, forallb (fun x : piece => match fst x with Newline => false | _ => true end) l = true -> forallb (fun t => negb (is_k Newline t)) (lay p prev l) = true.
Proof.
  intros prev l. revert p prev. induction l as [|[k x] l IH]; intros p prev H; [reflexivity|]. cbn [forallb lay fst] in *. apply andb_true_iff in H as [K H]. rewrite IH by exact H. rewrite andb_true_r. unfold is_k. cbn [tk]. destruct k; first [reflexivity|discriminate K].
Qed.
Lemma line_no_newline l : forallb item_ok l = true -> forallb (fun x : piece => match fst x with Newline => false | _ => true end) (line_pieces l) = true.
Proof.
  set (f := fun x : piece => match fst x with Newline => false | _ => true end).
  assert (J : forall l, forallb (forallb f) l = true -> forallb f (sepj space l) = true).
  { induction l0 as [|x [|y l0] IH]; intros H; [reflexivity|cbn in *; now rewrite andb_true_r in H|]. cbn [forallb] in H. apply andb_true_iff in H as [X H]. change (sepj space (x :: y :: l0)) with (x ++ [space] ++ sepj space (y :: l0)). rewrite !forallb_app, X, IH by exact H. reflexivity. }
  intros H. unfold line_pieces. apply J. rewrite forallb_forall in *. intros x I. apply in_map_iff in I as ([p u] & <- & I). specialize (H _ I). apply andb_true_iff in H as [H X]. cbn [fst snd] in *. unfold item_pieces. cbn [fst snd].
  rewrite forallb_app. apply andb_true_iff. split.
  - destruct p as [w|c|s ws]; cbn [phrase_pieces].
    + unfold word_piece, f. cbn. now destruct (a_name w).
    + cbn. unfold f, special_kind_of. cbn. now destruct (Ascii.eqb c "&"), (Ascii.eqb c "<").
    + cbn [forallb]. rewrite forallb_app. cbn [forallb]. replace (f (mark_kind s, mark s)) with true by now destruct s. cbn [andb]. rewrite andb_true_r. apply J. rewrite forallb_forall. intros y Y. apply in_map_iff in Y as (w & <- & _). reflexivity.
  - unfold punct_pieces. rewrite forallb_forall. intros y Y. apply in_map_iff in Y as (d & <- & _). unfold f, punct_kind. cbn. now destruct (Ascii.eqb d ","), (Ascii.eqb d "."), (Ascii.eqb d "!").
Qed.
Lemma source_lines_run ts : forall cur rest, forallb (fun t => negb (is_k Newline t)) ts = true -> source_lines cur (ts ++ rest) = source_lines (cur ++ ts) rest.
Proof. induction ts as [|t ts IH]; intros cur rest H; [now rewrite app_nil_r|]. cbn [forallb] in H. apply andb_true_iff in H as [T H]. cbn [app source_lines]. apply negb_true_iff in T. rewrite T, IH by exact H. now rewrite <- app_assoc. Qed.
Lemma lay_length p prev l : length (lay p prev l) = length l.
Proof. revert p prev. induction l as [|[k x] l IH]; intros; cbn; [reflexivity|now rewrite IH]. Qed.
Lemma source_lines_doc ls : forall p prev, forallb (forallb item_ok) ls = true -> source_lines [] (lay p prev (doc_pieces ls)) = lines_at p prev ls.
Proof.
  induction ls as [|l ls IH]; intros p prev H; [reflexivity|]. cbn [forallb] in H. apply andb_true_iff in H as [L H]. destruct ls as [|m ls].
  - cbn [doc_pieces map sepj lines_at]. rewrite <- (app_nil_r (lay _ _ _)) at 1. rewrite source_lines_run by (apply not_newline; now apply line_no_newline). cbn [app source_lines]. now destruct (lay p prev (line_pieces l)).
  - change (doc_pieces (l :: m :: ls)) with (line_pieces l ++ (Newline, newline) :: doc_pieces (m :: ls)). rewrite lay_app. rewrite source_lines_run by (apply not_newline; now apply line_no_newline).
    cbn [app lay source_lines lines_at]. change (is_k Newline _) with true. cbn iota. cbn [app]. f_equal. rewrite flat_line. apply IH. exact H.
Qed.
Lemma nonempty_lengths l : forall prev rest, scans prev l rest -> length l <= length (flat l).
Proof. induction l as [|[k x] l IH]; intros prev rest S; [cbn; lia|]. cbn [WholeLexProofs.scans] in S. destruct S as (NE & _ & _ & _ & S). apply IH in S. rewrite flat_cons, app_length. destruct x; [easy|]. cbn. lia. Qed.
Lemma lex_source ls : forallb (forallb item_ok) ls = true -> lex plugins (source ls) = Some (lines_at 0 None ls).
Proof.
  intros H. pose proof (scans_doc ls None H) as S. unfold lex. rewrite <- flat_doc. change (from_bytes (flat (doc_pieces ls))) with (LexerProofs.at_ [] (flat (doc_pieces ls)) 0).
  destruct (tokens_of plugins (doc_pieces ls) (Datatypes.S (length (flat (doc_pieces ls)))) []) as (ts & -> & M); [|exact S|].
  - apply nonempty_lengths in S. lia.
  - cbn [app length] in M. change (final None []) with (@None ascii) in M. rewrite M. f_equal. now apply source_lines_doc.
Qed.
End Read.
