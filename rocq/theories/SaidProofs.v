(** Proofs for C76: the HTML of ManualSpec.v shows what SaidSpec.v says, piece by piece. *)
From Verif Require Import Base WholeSpec OutlineSpec BoxSpec ManualSpec SaidSpec.
From Verif Require ArticleSpec.
From Coq Require Import DecimalString.
Import ListNotations.
Open Scope list_scope.
Open Scope nat_scope.

(** [x] shows [t], whatever comes after *)
Definition says (x t : bytes) : Prop := forall r, shown_from false (x ++ r) = t ++ shown_from false r.
Lemma says_nil : says [] [].
Proof. intros r. reflexivity. Qed.
Lemma says_app x y t u : says x t -> says y u -> says (x ++ y) (t ++ u).
Proof. intros X Y r. rewrite <- !app_assoc. now rewrite X, Y. Qed.
Lemma says_app0 x y u : says x [] -> says y u -> says (x ++ y) u.
Proof. intros X Y. exact (says_app x y [] u X Y). Qed.
Lemma says_around x y z t : says x [] -> says y t -> says z [] -> says (x ++ y ++ z) t.
Proof. intros X Y Z. apply says_app0; [exact X|]. rewrite <- (app_nil_r t). now apply says_app. Qed.
Lemma says_shown x t : says x t -> shown x = t.
Proof. intros H. unfold shown. rewrite <- (app_nil_r x), H. apply app_nil_r. Qed.
Definition ordinary (c : ascii) : bool := negb (Ascii.eqb c "<" || is_blank c).
Lemma says_word w : forallb ordinary w = true -> says w w.
Proof.
  induction w as [|c w IH]; intros H r; [reflexivity|]. cbn [forallb] in H. apply andb_true_iff in H as [C H]. unfold ordinary in C. apply negb_true_iff, orb_false_iff in C as [C1 C2]. cbn [app shown_from]. rewrite C1, C2. f_equal. now apply IH.
Qed.
Lemma concat_says {A} (f g : A -> bytes) l : (forall x, In x l -> says (f x) (g x)) -> says (concat (map f l)) (flat_map g l).
Proof. induction l as [|x l IH]; intros H; [exact says_nil|]. cbn [map concat flat_map]. apply says_app; [apply H; now left|]. apply IH. intros y Y. apply H. now right. Qed.
Lemma join_says {A} (f g : A -> bytes) sep l : says sep [] -> (forall x, In x l -> says (f x) (g x)) -> says (join sep (map f l)) (flat_map g l).
Proof.
  intros S. induction l as [|x l IH]; intros H; [exact says_nil|]. destruct l as [|y l].
  - cbn [map join flat_map]. rewrite app_nil_r. apply H. now left.
  - change (join sep (map f (x :: y :: l))) with (f x ++ sep ++ join sep (map f (y :: l))). change (flat_map g (x :: y :: l)) with (g x ++ flat_map g (y :: l)). apply says_app; [apply H; now left|]. apply says_app0; [exact S|]. apply IH. intros z Z. apply H. now right.
Qed.
Lemma space_says : says $" " [].
Proof. intros r. reflexivity. Qed.
Definition in_tag (c : ascii) : bool := negb (Ascii.eqb c ">").
Lemma in_tag_shown x r : forallb in_tag x = true -> shown_from true (x ++ r) = shown_from true r.
Proof. induction x as [|c x IH]; [reflexivity|]. cbn [forallb app shown_from]. intros H. apply andb_true_iff in H as [C H]. unfold in_tag in C. rewrite C. now apply IH. Qed.
Lemma tag_says x : forallb in_tag x = true -> says ($"<" ++ x ++ $">") [].
Proof. intros H r. change ($"<" ++ x ++ $">") with ("<"%char :: (x ++ [">"%char])). cbn [app shown_from]. change (Ascii.eqb "<" "<") with true. cbn iota. rewrite <- app_assoc, in_tag_shown by exact H. reflexivity. Qed.

(** ** Characters *)
Lemma alnum_ordinary c : a_letter c || a_digit c = true -> ordinary c = true.
Proof. destruct c as [[] [] [] [] [] [] [] []]; vm_compute; intros H; first [reflexivity|discriminate H]. Qed.
Lemma lower_in_tag c : a_letter c || a_digit c = true -> in_tag (ArticleSpec.lower c) = true.
Proof. destruct c as [[] [] [] [] [] [] [] []]; vm_compute; intros H; first [reflexivity|discriminate H]. Qed.
Lemma forallb_weak {A} (p q : A -> bool) l : (forall x, p x = true -> q x = true) -> forallb p l = true -> forallb q l = true.
Proof. intros W H. rewrite forallb_forall in *. auto. Qed.
Lemma name_chars w : a_name w = true -> forallb (fun c => a_letter c || a_digit c) w = true.
Proof. destruct w as [|c w]; [discriminate|]. cbn [a_name forallb]. intros H. apply andb_true_iff in H as [-> H]. exact H. Qed.
Lemma number_chars w : a_number w = true -> forallb (fun c => a_letter c || a_digit c) w = true.
Proof. destruct w as [|c w]; [discriminate|]. apply forallb_weak. intros x ->. apply orb_true_r. Qed.
Lemma word_chars w : a_name w || a_number w = true -> forallb (fun c => a_letter c || a_digit c) w = true.
Proof. intros H. apply orb_true_iff in H as [H|H]; [now apply name_chars|now apply number_chars]. Qed.
Lemma word_says w : a_name w || a_number w = true -> says w w.
Proof. intros H. apply says_word. exact (forallb_weak _ _ _ alnum_ordinary (word_chars w H)). Qed.
Lemma name_says w : a_name w = true -> says w w.
Proof. intros H. apply word_says. now rewrite H. Qed.
Lemma in_map_id {A} (l : list (list A)) : flat_map (fun x => x) l = concat l.
Proof. rewrite flat_map_concat_map, map_id. reflexivity. Qed.
Lemma names_say ws : forallb a_name ws = true -> says (join ($" ") ws) (concat ws).
Proof. intros H. rewrite <- (map_id ws) at 1. rewrite <- in_map_id. apply join_says; [exact space_says|]. intros x X. apply name_says. rewrite forallb_forall in H. now apply H. Qed.
Lemma escaped_says c : existsb (Ascii.eqb c) ["&"; "<"; ">"]%char = true -> says (escaped c) (escaped c).
Proof. intros _ r. unfold escaped. destruct (Ascii.eqb c "&"); [reflexivity|]. destruct (Ascii.eqb c "<"); reflexivity. Qed.
Lemma punctuation_says x : punctuation_ok x = true -> says x x.
Proof.
  destruct x as [|c [|]]; [intros _; exact says_nil| |discriminate]. intros H. apply says_word. cbn [punctuation_ok existsb] in H. cbn [forallb]. rewrite andb_true_r. revert H. destruct c as [[] [] [] [] [] [] [] []]; vm_compute; intros H; first [reflexivity|discriminate H].
Qed.

(** ** Lines *)
Definition item_ok (i : item) : bool := phrase_ok (fst i) && punctuation_ok (snd i).
Lemma phrase_says p : phrase_ok p = true -> says (phrase_html p) (phrase_said p).
Proof.
  destruct p as [w|c|s ws]; cbn [phrase_ok phrase_html phrase_said]; [apply word_says|apply escaped_says|]. intros H. assert (N : forallb a_name ws = true) by (destruct ws; [discriminate H|exact H]).
  replace ($"<" ++ tag s ++ $">" ++ join ($" ") ws ++ $"</" ++ tag s ++ $">") with (($"<" ++ tag s ++ $">") ++ join ($" ") ws ++ ($"</" ++ tag s ++ $">")) by (now rewrite <- !app_assoc).
  apply says_around; [now apply tag_says; destruct s|now apply names_say|]. intros r. destruct s; reflexivity.
Qed.
Lemma line_says l : forallb item_ok l = true -> says (line_html l) (line_said l).
Proof.
  intros H. unfold line_html, line_said. apply join_says; [exact space_says|]. intros i I. rewrite forallb_forall in H. pose proof (H i I) as K. apply andb_true_iff in K as [K1 K2]. apply says_app; [now apply phrase_says|now apply punctuation_says].
Qed.
Lemma line_items l : line_ok l = true -> forallb item_ok l = true.
Proof. intros H. apply andb_true_iff in H as [H _]. exact H. Qed.
Lemma words_items l : words_ok l = true -> forallb item_ok l = true.
Proof. destruct l; [discriminate|exact (fun H => H)]. Qed.
Lemma heading_items l : ArticleSpec.heading_ok l = true -> forallb item_ok l = true.
Proof. destruct l as [|i l]; [discriminate|]. apply forallb_weak. intros x H. apply andb_true_iff in H as [H1 H2]. unfold item_ok. rewrite H2, andb_true_r. destruct (fst x); [exact H1|discriminate H1|exact H1]. Qed.
Lemma lines_say ls : forallb (forallb item_ok) ls = true -> says (join ($" ") (map line_html ls)) (flat_map line_said ls).
Proof. intros H. apply join_says; [exact space_says|]. intros l I. rewrite forallb_forall in H. apply line_says. now apply H. Qed.

(** ** Paragraphs *)
Lemma paragraphs_lines : forall ls cur, flat_map (flat_map line_said) (paragraphs_from cur ls) = flat_map line_said cur ++ flat_map line_said ls.
Proof.
  induction ls as [|l ls IH]; intros cur.
  - destruct cur as [|c cur]; [reflexivity|]. cbn [paragraphs_from]. change (flat_map (flat_map line_said) [c :: cur]) with (flat_map line_said (c :: cur) ++ []). reflexivity.
  - destruct l as [|i l].
    + change (flat_map line_said ([] :: ls)) with (flat_map line_said ls). destruct cur as [|c cur]; [exact (IH [])|]. cbn [paragraphs_from]. change (flat_map (flat_map line_said) ((c :: cur) :: paragraphs_from [] ls)) with (flat_map line_said (c :: cur) ++ flat_map (flat_map line_said) (paragraphs_from [] ls)). now rewrite (IH []).
    + cbn [paragraphs_from]. rewrite IH, flat_map_app. cbn [flat_map]. rewrite app_nil_r, <- app_assoc. reflexivity.
Qed.
Lemma paragraphs_ok : forall ls cur, forallb (forallb item_ok) cur = true -> forallb (forallb item_ok) ls = true -> Forall (fun p => forallb (forallb item_ok) p = true) (paragraphs_from cur ls).
Proof.
  induction ls as [|l ls IH]; intros cur C H.
  - destruct cur; constructor; [exact C|constructor].
  - cbn [forallb] in H. apply andb_true_iff in H as [H1 H]. destruct l as [|i l].
    + destruct cur; [now apply IH|]. cbn [paragraphs_from]. constructor; [exact C|now apply IH].
    + cbn [paragraphs_from]. apply IH; [|exact H]. rewrite forallb_app. apply andb_true_iff. split; [exact C|]. apply andb_true_iff. split; [exact H1|reflexivity].
Qed.
Lemma paragraph_says ls : forallb (forallb item_ok) ls = true -> says (paragraph_html ls) (flat_map line_said ls).
Proof. intros H. unfold paragraph_html. apply says_around; [intros r; reflexivity|now apply lines_say|intros r; reflexivity]. Qed.
Lemma text_says ls : forallb line_ok ls = true -> says (WholeSpec.html ls) (flat_map line_said ls).
Proof.
  intros H. assert (OK : forallb (forallb item_ok) ls = true) by exact (forallb_weak _ _ _ line_items H). pose proof (paragraphs_ok ls [] eq_refl OK) as F. rewrite Forall_forall in F.
  unfold WholeSpec.html. rewrite <- (app_nil_l (flat_map line_said ls)). change (@nil ascii) with (flat_map line_said []). rewrite <- paragraphs_lines. apply concat_says. intros p I. apply paragraph_says. now apply F.
Qed.

(** ** Lists *)
Lemma list_says k n x t : says x t -> says (list_html k n x) t.
Proof.
  intros H. destruct k; cbn [list_html]; [apply says_around; [intros r; reflexivity|exact H|intros r; reflexivity]|].
  assert (E : $"<div class=""olist " ++ numbering n ++ $"""><ol class=""" ++ numbering n ++ $"""" ++ numbering_type n ++ $">" ++ x ++ $"</ol></div>" = ($"<div class=""olist " ++ numbering n ++ $"""><ol class=""" ++ numbering n ++ $"""" ++ numbering_type n ++ $">") ++ x ++ $"</ol></div>") by (now rewrite <- !app_assoc).
  rewrite E. apply says_around; [|exact H|intros r; reflexivity]. intros r. destruct n as [|[|[|[|[|n]]]]]; reflexivity.
Qed.
Fixpoint entry_rect' (Q : entry -> Prop) (f : forall bl x more k subs, Forall Q subs -> Q (Entry bl x more k subs)) (e : entry) : Q e :=
  match e with Entry bl x more k subs => f bl x more k subs ((fix go l : Forall Q l := match l with [] => Forall_nil _ | y :: r => Forall_cons _ (entry_rect' Q f y) (go r) end) subs) end.
Lemma entry_says : forall e n d, entry_ok n e = true -> says (entry_html d e) (entry_said e).
Proof.
  induction e as [bl f more k subs IH] using entry_rect'. intros n d H. cbn [entry_ok] in H. apply andb_true_iff in H as [H OS]. apply andb_true_iff in H as [H OM]. apply andb_true_iff in H as [_ OF].
  assert (TX : says (join ($" ") (map line_html (f :: more))) (line_said f ++ flat_map line_said more)).
  { change (line_said f ++ flat_map line_said more) with (flat_map line_said (f :: more)). apply lines_say. cbn [forallb]. rewrite (words_items f OF). cbn [andb]. revert OM. apply forallb_weak. intros l L. apply line_items. now destruct l. }
  assert (SB : says (match subs with [] => [] | _ => list_html k (S d) (concat (map (entry_html (S d)) subs)) end) (flat_map entry_said subs)).
  { assert (C : says (concat (map (entry_html (S d)) subs)) (flat_map entry_said subs)). { apply concat_says. intros x X. rewrite Forall_forall in IH. rewrite forallb_forall in OS. exact (IH x X _ _ (OS x X)). }
    destruct subs; [exact says_nil|]. now apply list_says. }
  cbn [entry_html entry_said]. rewrite (app_assoc (line_said f)). apply says_app0; [intros r; reflexivity|]. apply says_app; [exact TX|]. apply says_app0; [intros r; reflexivity|]. rewrite <- (app_nil_r (flat_map entry_said subs)). apply says_app; [exact SB|intros r; reflexivity].
Qed.
Lemma part_says p : part_ok p = true -> says (part_html p) (part_said p).
Proof.
  destruct p as [ls|k es]; cbn [part_ok part_html part_said]; [apply text_says|]. intros H. assert (OS : forallb (entry_ok 1) es = true) by (destruct es; [discriminate H|exact H]). apply list_says, concat_says. intros e E. rewrite forallb_forall in OS. exact (entry_says e 1 1 (OS e E)).
Qed.

(** ** Delimited blocks *)
Lemma box_says b x t : says x t -> says (box_html b x) t.
Proof. intros H. destruct b; cbn [box_html]; (apply says_around; [intros r; reflexivity|exact H|intros r; reflexivity]). Qed.
Lemma escape_app x y : escape (x ++ y) = escape x ++ escape y.
Proof. unfold escape. apply flat_map_app. Qed.
Lemma escape_join sep l : escape sep = sep -> escape (join sep l) = join sep (map escape l).
Proof. intros S. induction l as [|x l IH]; [reflexivity|]. destruct l as [|y l]; [reflexivity|]. change (join sep (x :: y :: l)) with (x ++ sep ++ join sep (y :: l)). rewrite !escape_app, S, IH. reflexivity. Qed.
Definition unspecial (c : ascii) : bool := negb (existsb (Ascii.eqb c) ["&"; "<"; ">"]%char).
Lemma escape_plain x : forallb unspecial x = true -> escape x = x.
Proof. induction x as [|c x IH]; [reflexivity|]. cbn [forallb]. intros H. apply andb_true_iff in H as [C H]. change (c :: x) with ([c] ++ x) at 1. rewrite escape_app, (IH H). unfold escape. cbn [flat_map]. unfold unspecial in C. apply negb_true_iff in C. rewrite C. reflexivity. Qed.
Lemma alnum_unspecial c : a_letter c || a_digit c = true -> unspecial c = true.
Proof. destruct c as [[] [] [] [] [] [] [] []]; vm_compute; intros H; first [reflexivity|discriminate H]. Qed.
Lemma escape_word w : a_name w || a_number w = true -> escape w = w.
Proof. intros H. apply escape_plain. exact (forallb_weak _ _ _ alnum_unspecial (word_chars w H)). Qed.
Lemma escape_names ws : forallb a_name ws = true -> map escape ws = ws.
Proof. induction ws as [|w ws IH]; [reflexivity|]. cbn [forallb map]. intros H. apply andb_true_iff in H as [W H]. rewrite (IH H), (escape_word w); [reflexivity|now rewrite W]. Qed.
Lemma kept_phrase p : phrase_ok p = true -> says (escape (phrase_source p)) (phrase_kept p).
Proof.
  destruct p as [w|c|s ws]; cbn [phrase_ok phrase_source phrase_kept].
  - intros H. rewrite (escape_word w H). now apply word_says.
  - intros H. unfold escape. cbn [flat_map]. rewrite app_nil_r, H. now apply escaped_says.
  - intros H. assert (N : forallb a_name ws = true) by (destruct ws; [discriminate H|exact H]). rewrite !escape_app, (escape_join _ _ eq_refl), (escape_names ws N). replace (escape (mark s)) with (mark s) by (now destruct s).
    assert (MS : says (mark s) (mark s)) by (intros r; now destruct s). apply says_app; [exact MS|]. apply says_app; [now apply names_say|exact MS].
Qed.
Lemma punctuation_unspecial x : punctuation_ok x = true -> forallb unspecial x = true.
Proof. destruct x as [|c [|]]; [reflexivity| |discriminate]. cbn [punctuation_ok existsb forallb]. rewrite andb_true_r. destruct c as [[] [] [] [] [] [] [] []]; vm_compute; intros H; first [reflexivity|discriminate H]. Qed.
Lemma kept_line l : forallb item_ok l = true -> says (escape (line_source l)) (line_kept l).
Proof.
  intros H. unfold line_source, line_kept. rewrite (escape_join _ _ eq_refl), map_map. apply join_says; [exact space_says|]. intros i I. rewrite forallb_forall in H. pose proof (H i I) as K. apply andb_true_iff in K as [K1 K2]. rewrite escape_app. apply says_app; [now apply kept_phrase|].
  rewrite escape_plain; [now apply punctuation_says|now apply punctuation_unspecial].
Qed.
Lemma skip_lines ls : exists n, ls = repeat [] n ++ skip_blank_lines ls.
Proof. induction ls as [|l ls [n E]]; [now exists 0|]. destruct l as [|i l]; [|now exists 0]. exists (S n). cbn [skip_blank_lines repeat app]. now f_equal. Qed.
Lemma trimmed_lines ls : exists n k, ls = repeat [] n ++ trimmed ls ++ repeat [] k.
Proof.
  destruct (skip_lines ls) as [n E]. destruct (skip_lines (rev (skip_blank_lines ls))) as [k F]. exists n, k. rewrite E at 1. f_equal. apply (f_equal (@rev line)) in F. rewrite rev_involutive, rev_app_distr in F. rewrite F at 1. unfold trimmed. f_equal.
  clear. induction k as [|k IH]; [reflexivity|]. cbn [repeat rev]. rewrite IH. clear IH. induction k as [|k IH]; [reflexivity|]. cbn [repeat app]. now rewrite IH.
Qed.
Lemma blank_kept n : flat_map line_kept (repeat [] n) = [].
Proof. induction n as [|n IH]; [reflexivity|exact IH]. Qed.
Lemma kept_lines ls : forallb line_ok ls = true -> says (shown_html ls) (flat_map line_kept ls).
Proof.
  intros H. destruct (trimmed_lines ls) as (n & k & E). assert (O : forallb line_ok (trimmed ls) = true). { rewrite E, !forallb_app in H. apply andb_true_iff in H as [_ H]. now apply andb_true_iff in H as [H _]. }
  rewrite E at 2. rewrite !flat_map_app, !blank_kept, app_nil_r. cbn [app]. unfold shown_html. rewrite (escape_join newline _ eq_refl), map_map. apply join_says; [intros r; reflexivity|]. intros l I. apply kept_line, line_items. rewrite forallb_forall in O. now apply O.
Qed.
Fixpoint body_rect' (Q : body -> Prop) (f : forall p, Q (Bare p)) (g : forall b l, Forall Q l -> Q (Box b l)) (h : forall b ls, Q (Shown b ls)) (x : body) : Q x :=
  match x with
  | Bare p => f p
  | Box b l => g b l ((fix go l : Forall Q l := match l with [] => Forall_nil _ | y :: r => Forall_cons _ (body_rect' Q f g h y) (go r) end) l)
  | Shown b ls => h b ls
  end.
Lemma body_says : forall x o, body_ok o x = true -> says (BoxSpec.body_html x) (body_said x).
Proof.
  induction x as [p|b l IH|b ls] using body_rect'; intros o H; cbn [body_ok BoxSpec.body_html body_said] in *.
  - now apply part_says.
  - apply box_says, concat_says. intros y Y. apply andb_true_iff in H as [H _]. apply andb_true_iff in H as [_ H]. rewrite Forall_forall in IH. rewrite forallb_forall in H. exact (IH y Y _ (H y Y)).
  - apply andb_true_iff in H as [_ H]. apply box_says. now apply kept_lines.
Qed.
Lemma bodies_say l : bodies_ok l = true -> says (BoxSpec.html l) (flat_map body_said l).
Proof. intros H. apply andb_true_iff in H as [H _]. unfold BoxSpec.html. apply concat_says. intros x X. rewrite forallb_forall in H. exact (body_says x None (H x X)). Qed.

(** ** Ids stay in their tags *)
Lemma uint_in_tag d : forallb in_tag (list_ascii_of_string (NilEmpty.string_of_uint d)) = true.
Proof. induction d; cbn; auto. Qed.
Lemma dec_in_tag n : forallb in_tag (b (dec n)) = true.
Proof. unfold dec, NilZero.string_of_uint. change (b ?x) with (list_ascii_of_string x). destruct (Nat.to_uint n) eqn:E; [reflexivity|..]; exact (uint_in_tag (_ _)). Qed.
Lemma join_in_tag sep l : forallb in_tag sep = true -> forallb (forallb in_tag) l = true -> forallb in_tag (join sep l) = true.
Proof.
  intros S. induction l as [|x l IH]; [reflexivity|]. intros H. cbn [forallb] in H. apply andb_true_iff in H as [X H]. destruct l as [|y l]; [exact X|]. change (join sep (x :: y :: l)) with (x ++ sep ++ join sep (y :: l)). rewrite !forallb_app, X, S. now apply IH.
Qed.
Lemma words_in_tag h : ArticleSpec.heading_ok h = true -> forallb (forallb in_tag) (map (map ArticleSpec.lower) (ArticleSpec.heading_words h)) = true.
Proof.
  intros H. apply heading_items in H. unfold ArticleSpec.heading_words. induction h as [|i h IH]; [reflexivity|]. cbn [forallb flat_map] in *. apply andb_true_iff in H as [I H]. rewrite map_app, forallb_app. apply andb_true_iff. split; [|exact (IH H)]. apply andb_true_iff in I as [I _].
  assert (W : forall w, forallb (fun c => a_letter c || a_digit c) w = true -> forallb in_tag (map ArticleSpec.lower w) = true). { clear. induction w as [|c w IH]; [reflexivity|]. cbn [forallb map]. intros H. apply andb_true_iff in H as [C H]. now rewrite (lower_in_tag c C), IH. }
  destruct (fst i) as [w|c|s ws]; cbn [ArticleSpec.phrase_words map forallb phrase_ok] in *; [rewrite andb_true_r; apply W; now apply word_chars|reflexivity|].
  assert (N : forallb a_name ws = true) by (destruct ws; [discriminate I|exact I]). clear - N W. induction ws as [|w ws IH]; [reflexivity|]. cbn [forallb map] in *. apply andb_true_iff in N as [N1 N]. rewrite (W w (name_chars w N1)). now apply IH.
Qed.
Lemma plain_in_tag h : ArticleSpec.heading_ok h = true -> forallb in_tag (ArticleSpec.plain_id h) = true.
Proof. intros H. unfold ArticleSpec.plain_id. rewrite forallb_app. cbn [andb]. apply join_in_tag; [reflexivity|now apply words_in_tag]. Qed.
Lemma pick_in_tag used x : forallb in_tag x = true -> forallb in_tag (ArticleSpec.pick used x) = true.
Proof. intros H. unfold ArticleSpec.pick. destruct (ArticleSpec.taken used x); [|exact H]. destruct (find _ _); [|reflexivity]. unfold ArticleSpec.numbered_id. rewrite !forallb_app, H. apply dec_in_tag. Qed.
Lemma ids_in_tag : forall hs used, forallb ArticleSpec.heading_ok hs = true -> forallb (forallb in_tag) (ArticleSpec.ids_from used hs) = true.
Proof. induction hs as [|h hs IH]; intros used H; [reflexivity|]. cbn [forallb ArticleSpec.ids_from] in *. apply andb_true_iff in H as [H1 H]. rewrite (pick_in_tag used _ (plain_in_tag h H1)). now apply IH. Qed.
Lemma nth_in_tag k ids : forallb (forallb in_tag) ids = true -> forallb in_tag (nth k ids []) = true.
Proof. revert k. induction ids as [|x ids IH]; intros [|k] H; try reflexivity; cbn [forallb nth] in *; apply andb_true_iff in H as [X H]; [exact X|now apply IH]. Qed.

(** ** Sections *)
Lemma heading_says n id h : forallb in_tag id = true -> ArticleSpec.heading_ok h = true -> says (ArticleSpec.heading_html n id h) (line_said h).
Proof.
  intros I H. unfold ArticleSpec.heading_html.
  assert (E : $"<h" ++ b (dec (S n)) ++ $" id=""" ++ id ++ $""">" ++ line_html h ++ $"</h" ++ b (dec (S n)) ++ $">" = ($"<" ++ ($"h" ++ b (dec (S n)) ++ $" id=""" ++ id ++ $"""") ++ $">") ++ line_html h ++ ($"<" ++ ($"/h" ++ b (dec (S n))) ++ $">")).
  { rewrite <- !app_assoc. reflexivity. }
  rewrite E. apply says_around; [|apply line_says; now apply heading_items|]; apply tag_says; rewrite !forallb_app, ?I, !dec_in_tag; reflexivity.
Qed.
Lemma sectionbody_says n x t : says x t -> says (ArticleSpec.body_html n x) t.
Proof. intros H. unfold ArticleSpec.body_html. destruct (n =? 1); [|exact H]. apply says_around; [intros r; reflexivity|exact H|intros r; reflexivity]. Qed.
Section Ids.
Variable ids : list bytes.
Hypothesis ids_ok : forallb (forallb in_tag) ids = true.
Fixpoint section_ind' (Q : section -> Prop) (f : forall h l subs, Forall Q subs -> Q (Sec h l subs)) (s : section) : Q s :=
  match s with Sec h l subs => f h l subs ((fix go l : Forall Q l := match l with [] => Forall_nil _ | y :: r => Forall_cons _ (section_ind' Q f y) (go r) end) subs) end.
Lemma section_says : forall s n k, section_ok n s = true -> says (section_html ids n k s) (section_said s).
Proof.
  induction s as [h l subs IH] using section_ind'. intros n k H. cbn [section_ok] in H. apply andb_true_iff in H as [H OS]. apply andb_true_iff in H as [H OB]. apply andb_true_iff in H as [_ OH].
  cbn [section_html section_said]. unfold whole_section_html.
  assert (E : forall x y, $"<div class=""sect" ++ b (dec n) ++ $""">" ++ x ++ y ++ $"</div>" = ($"<" ++ ($"div class=""sect" ++ b (dec n) ++ $"""") ++ $">") ++ (x ++ y) ++ $"</div>") by (intros x y; rewrite <- !app_assoc; reflexivity).
  rewrite E. apply says_around; [apply tag_says; rewrite !forallb_app, dec_in_tag; reflexivity| |intros r; reflexivity]. apply says_app; [apply heading_says; [now apply nth_in_tag|exact OH]|]. apply sectionbody_says, says_app; [now apply bodies_say|].
  generalize (S k). clear - IH OS. induction IH as [|s subs I _ IHs]; intros k; [exact says_nil|]. cbn [forallb flat_map] in *. apply andb_true_iff in OS as [O1 OS]. apply says_app; [now apply I|now apply IHs].
Qed.
Lemma sections_say n : forall l k, forallb (section_ok n) l = true -> says (sections_html ids n k l) (flat_map section_said l).
Proof. induction l as [|s l IH]; intros k H; [exact says_nil|]. cbn [forallb sections_html flat_map] in *. apply andb_true_iff in H as [H1 H]. apply says_app; [now apply section_says|now apply IH]. Qed.
End Ids.
Lemma headings_fine : forall s n, section_ok n s = true -> forallb ArticleSpec.heading_ok (section_headings s) = true.
Proof.
  induction s as [h l subs IH] using section_ind'. intros n OK. cbn [section_ok] in OK. apply andb_true_iff in OK as [OK OS]. apply andb_true_iff in OK as [OK _]. apply andb_true_iff in OK as [_ OH]. cbn [section_headings forallb]. rewrite OH. cbn [andb].
  induction IH as [|s subs I _ IHs]; [reflexivity|]. cbn [forallb flat_map] in *. apply andb_true_iff in OS as [O1 O]. rewrite forallb_app, (I _ O1). now apply IHs.
Qed.
Lemma manual_says m : manual_ok m = true -> shown (html m) = said m.
Proof.
  intros OK. apply andb_true_iff in OK as [OK OS]. apply andb_true_iff in OK as [_ OI]. apply says_shown. unfold html, said. apply says_app.
  - unfold preamble_html. pose proof (bodies_say _ OI) as B. destruct (title m), (sections m), (BoxSpec.html (intro m)) eqn:E; try exact B. apply says_around; [intros r; reflexivity|exact B|intros r; reflexivity].
  - apply sections_say; [|exact OS]. apply ids_in_tag. clear OI. revert OS. generalize (sections m). clear. induction l as [|s l IH]; [reflexivity|]. cbn [forallb flat_map]. intros H. apply andb_true_iff in H as [H1 H]. rewrite forallb_app, (headings_fine s _ H1). now apply IH.
Qed.
