(** The tokens of a text with lists, delimited blocks and headings (C71, C72, C74). *)
From Verif Require Import Base Utf8 LexerModel LexerSpec LexerProofs LineModel InlineModel InlineSpec WholeModel WholeSpec WholeLexProofs WholePieceProofs.
From Verif Require Import OutlineSpec BoxSpec.
From Verif Require ArticleSpec ArticleLexProofs.
Module AL := ArticleLexProofs.
Import ListNotations.
Open Scope list_scope.
Open Scope nat_scope.

(** ** Rows: lines of text, lines with markers, delimiters and headings *)
Inductive row := Text (l : line) | Mark (k : list_kind) (n : nat) (l : line) | Fence (b : box) | Head (n : nat) (l : line).
Definition mark_pieces (k : list_kind) (n : nat) : list piece := match k with Bulleted => repeat (Star, $"*") n | Numbered => [(Dots, repeat "."%char n)] end.
Definition row_source (r : row) : bytes := match r with Text l => line_source l | Mark k n l => marker k n ++ $" " ++ line_source l | Fence b => delimiter_line b | Head n l => ArticleSpec.heading_source n l end.
Definition row_pieces (r : row) : list piece := match r with Text l => line_pieces l | Mark k n l => mark_pieces k n ++ space :: line_pieces l | Fence b => [(DelimiterLine, delimiter_line b)] | Head n l => AL.row_pieces (AL.Head n l) end.
Definition row_ok (r : row) : bool := match r with Text l => line_ok l | Mark k n l => (1 <=? n) && (n <=? 255) && words_ok l | Fence b => box_ok b | Head n l => AL.row_ok (AL.Head n l) end.
Definition rows_pieces (rs : list row) : list piece := sepj (Newline, newline) (map row_pieces rs).
Definition rows_source (rs : list row) : bytes := join newline (map row_source rs).
Lemma flat_stars n : flat (repeat (Star, $"*") n) = repeat "*"%char n.
Proof. induction n as [|n IH]; [reflexivity|]. cbn [repeat]. rewrite flat_cons, IH. reflexivity. Qed.
Lemma flat_marks k n : flat (mark_pieces k n) = marker k n.
Proof. destruct k; cbn [mark_pieces]; [apply flat_stars|]. unfold flat. cbn [map snd concat]. apply app_nil_r. Qed.
Lemma flat_row r : flat (row_pieces r) = row_source r.
Proof. destruct r as [l|k n l|b|n l]; cbn [row_pieces row_source]; [apply flat_line| |apply app_nil_r|apply (AL.flat_row (AL.Head n l))]. unfold space. rewrite flat_app, flat_cons, flat_line, flat_marks. reflexivity. Qed.
Lemma flat_rows rs : flat (rows_pieces rs) = rows_source rs.
Proof. unfold rows_pieces, rows_source. rewrite flat_sepj, map_map. f_equal. apply map_ext. apply flat_row. Qed.
Lemma line_items l : line_ok l = true -> forallb item_ok l = true.
Proof. unfold line_ok. intros H. now apply andb_true_iff in H as [H _]. Qed.
Lemma words_items l : words_ok l = true -> forallb item_ok l = true.
Proof. now destruct l. Qed.
Lemma row_items r : row_ok r = true -> forallb item_ok (match r with Text l | Mark _ _ l | Head _ l => l | Fence _ => [] end) = true.
Proof. destruct r as [l|k n l|b|n l]; cbn [row_ok]; [apply line_items| |reflexivity|apply (AL.row_items (AL.Head n l))]. intros H. apply andb_true_iff in H as [_ H]. now apply words_items. Qed.
Lemma run_delimiter ls c n r : c = "*"%char \/ c = "."%char -> at_delimiter_line ls (repeat c (S n) ++ " "%char :: r) = None.
Proof. intros C. unfold at_delimiter_line. destruct C; subst c; (destruct n as [|[|[|[|n]]]]; destruct ls; reflexivity). Qed.

Section Read.
Variable plugins : list bytes.
Notation scans := (scans plugins).
Lemma scans_stars n : forall prev l rest, scans (if n =? 0 then prev else Some "*"%char) (space :: l) rest -> scans prev (repeat (Star, $"*") n ++ space :: l) rest.
Proof.
  induction n as [|n IH]; intros prev l rest H; [exact H|]. cbn [repeat app]. cbn [WholeLexProofs.scans]. split; [discriminate|]. split; [repeat constructor|]. split; [discriminate|]. split.
  - change ($"*" ++ flat (repeat (Star, $"*") n ++ space :: l) ++ rest) with ("*"%char :: flat (repeat (Star, $"*") n ++ space :: l) ++ rest). rewrite flat_app, flat_stars. unfold space. rewrite flat_cons. rewrite <- !app_assoc.
    unfold scan. pose proof (run_delimiter (starts_line prev) "*"%char n (flat l ++ rest) (or_introl eq_refl)) as D. cbn [repeat app] in D. change ($" " ++ flat l ++ rest) with (" "%char :: flat l ++ rest). rewrite D. reflexivity.
  - apply IH. destruct n; exact H.
Qed.
Definition row_end (rest : bytes) : Prop := rest = [] \/ exists r, rest = newline ++ r.
Lemma row_tail rest : row_end rest -> tail rest.
Proof. intros [->|(r & ->)]; [exact I|reflexivity]. Qed.
Lemma end_of_line rest : row_end rest -> line_end (nth_error rest 0) = true.
Proof. intros [->|(r & ->)]; reflexivity. Qed.
Lemma run_equals n rest : row_end rest -> LexerModel.run (Ascii.eqb "="%char) (repeat "="%char n ++ rest) = n.
Proof. intros T. rewrite run_app; [apply repeat_length| |]; [induction n; [constructor|cbn [repeat]; constructor; [reflexivity|exact IHn]]|]. intros c q E. destruct T as [->|(r & ->)]; [discriminate E|]. injection E as <- _. reflexivity. Qed.
Lemma at_fence b rest : row_end rest -> exists c, at_delimiter_line true (delimiter_line b ++ rest) = Some (length (delimiter_line b), c).
Proof.
  intros T. pose proof (end_of_line rest T) as L. destruct b as [n| | | | |]; [|exists "*"%char|exists "_"%char|exists "-"%char|exists "-"%char|exists "."%char]; [exists "="%char|destruct T as [->|(r & ->)]; reflexivity..].
  destruct n as [|n]; [destruct T as [->|(r & ->)]; reflexivity|]. cbn [delimiter_line Nat.add repeat app]. unfold at_delimiter_line.
  cbn [mem existsb Ascii.eqb Bool.eqb orb negb andb nth_error is skipn]. rewrite run_equals by exact T. cbn [line_end mem existsb Ascii.eqb Bool.eqb orb andb]. 
  replace (line_end (nth_error _ (5 + n))) with true; [cbn [length]; rewrite repeat_length; reflexivity|]. symmetry. rewrite <- L. f_equal. cbn [Nat.add nth_error]. rewrite nth_error_app2 by (rewrite repeat_length; lia). now rewrite repeat_length, Nat.sub_diag.
Qed.
Lemma scans_row r : forall prev rest, row_ok r = true -> row_end rest -> starts_line prev = true -> scans prev (row_pieces r) rest.
Proof.
  intros prev rest H RE SL. pose proof (row_tail rest RE) as T. pose proof (row_items r H) as I. destruct r as [l|k n l|b|n l]; cbn [row_pieces]; [now apply scans_line| | |now apply AL.scans_row].
  2:{ cbn [WholeLexProofs.scans]. split; [destruct b; discriminate|]. split; [destruct b as [n| | | | |]; [|repeat constructor..]; cbn [delimiter_line]; induction (4 + n); [constructor|cbn [repeat]; constructor; [reflexivity|exact IHn0]]|]. split; [discriminate|]. split; [|exact Logic.I].
      cbn [flat map concat app]. rewrite SL. unfold scan. destruct (at_fence b rest RE) as (c & ->). destruct b; reflexivity. }
  cbn [row_ok] in H. apply andb_true_iff in H as [N H]. apply andb_true_iff in N as [N _]. apply Nat.leb_le in N.
  assert (SP : forall prev, scans prev (space :: line_pieces l) rest).
  { intros pr. unfold space. cbn [WholeLexProofs.scans]. split; [discriminate|]. split; [repeat constructor|]. split; [discriminate|]. split; [|now apply scans_line]. apply scans_space. destruct l as [|i l]; [discriminate H|]. cbn [words_ok forallb] in H.
    apply andb_true_iff in H as [J _]. pose proof (solid_item i J) as SJ. rewrite flat_line. unfold line_source. cbn [map join]. rewrite <- flat_item. destruct l; [exact SJ|now apply solid_app]. }
  destruct k; cbn [mark_pieces].
  - apply scans_stars. destruct n; [lia|]. apply SP.
  - destruct n as [|n]; [lia|]. change ([(Dots, repeat "."%char (S n))] ++ space :: line_pieces l) with ((Dots, repeat "."%char (S n)) :: space :: line_pieces l). set (m := space :: line_pieces l) in *. cbn [WholeLexProofs.scans]. split; [discriminate|].
    split. { clear. induction (S n); [constructor|]. cbn [repeat]. constructor; [reflexivity|exact IHn0]. } split; [discriminate|]. split; [|apply SP].
    subst m. unfold space. rewrite flat_cons. rewrite <- app_assoc. unfold scan. pose proof (run_delimiter (starts_line prev) "."%char n (flat (line_pieces l) ++ rest) (or_intror eq_refl)) as D.
    change ($" " ++ flat (line_pieces l) ++ rest) with (" "%char :: flat (line_pieces l) ++ rest). rewrite D. cbn [repeat app]. change (look "."%char repeats) with (Some Dots). cbn iota. unfold repeating. cbn zeta.
    assert (R : LexerModel.run (Ascii.eqb "."%char) (repeat "."%char n ++ " "%char :: flat (line_pieces l) ++ rest) = n).
    { rewrite run_app; [apply repeat_length| |]; [clear; induction n; [constructor|cbn [repeat]; constructor; [reflexivity|exact IHn]]|]. intros c q E. injection E as <- _. reflexivity. }
    rewrite R. cbn [length]. rewrite repeat_length. reflexivity.
Qed.
Lemma scans_rows rs : forall prev, forallb row_ok rs = true -> starts_line prev = true -> scans prev (rows_pieces rs) [].
Proof.
  induction rs as [|l ls IH]; intros prev H SL; [exact I|]. cbn [forallb] in H. apply andb_true_iff in H as [L H]. destruct ls as [|m ls].
  - cbn [rows_pieces map sepj]. apply scans_row; [exact L|now left|exact SL].
  - change (rows_pieces (l :: m :: ls)) with (row_pieces l ++ (Newline, newline) :: rows_pieces (m :: ls)). apply scans_app. split; [apply scans_row; [exact L|right; rewrite flat_cons, <- app_assoc; now eexists|exact SL]|].
    cbn [WholeLexProofs.scans]. split; [discriminate|]. split; [repeat constructor|]. split; [discriminate|]. split; [apply s_newline|now apply IH].
Qed.

(** ** The lines of tokens *)
Fixpoint rows_at (p : nat) (prev : option ascii) (rs : list row) : list (list tok) :=
  match rs with
  | [] => []
  | [r] => match lay p prev (row_pieces r) with [] => [] | ts => [ts] end
  | r :: m => lay p prev (row_pieces r) :: rows_at (p + length (row_source r) + 1) (Some LF) m
  end.
Lemma row_no_newline r : row_ok r = true -> forallb (fun x : piece => match fst x with Newline => false | _ => true end) (row_pieces r) = true.
Proof. intros H. apply row_items in H. destruct r as [l|k n l|b|n l]; [now apply line_no_newline| |reflexivity|cbn; now apply line_no_newline]. cbn [row_pieces]. rewrite forallb_app. cbn [forallb space fst andb]. rewrite line_no_newline by exact H. rewrite andb_true_r. destruct k; cbn [mark_pieces]; [|reflexivity]. induction n as [|n IH]; [reflexivity|]. exact IH. Qed.
Lemma source_lines_rows rs : forall p prev, forallb row_ok rs = true -> source_lines [] (lay p prev (rows_pieces rs)) = rows_at p prev rs.
Proof.
  induction rs as [|l ls IH]; intros p prev H; [reflexivity|]. cbn [forallb] in H. apply andb_true_iff in H as [L H]. destruct ls as [|m ls].
  - cbn [rows_pieces map sepj rows_at]. rewrite <- (app_nil_r (lay _ _ _)) at 1. rewrite source_lines_run by (apply not_newline; now apply row_no_newline). cbn [app source_lines]. now destruct (lay p prev (row_pieces l)).
  - change (rows_pieces (l :: m :: ls)) with (row_pieces l ++ (Newline, newline) :: rows_pieces (m :: ls)). rewrite lay_app. rewrite source_lines_run by (apply not_newline; now apply row_no_newline).
    change (rows_at p prev (l :: m :: ls)) with (lay p prev (row_pieces l) :: rows_at (p + length (row_source l) + 1) (Some LF) (m :: ls)).
    cbn [app lay source_lines]. change (is_k Newline _) with true. cbn iota. cbn [app]. f_equal. rewrite flat_row. apply IH. exact H.
Qed.
Lemma lex_rows rs : forallb row_ok rs = true -> lex plugins (rows_source rs) = Some (rows_at 0 None rs).
Proof.
  intros H. pose proof (scans_rows rs None H eq_refl) as S. unfold lex. rewrite <- flat_rows. change (from_bytes (flat (rows_pieces rs))) with (LexerProofs.at_ [] (flat (rows_pieces rs)) 0).
  destruct (tokens_of plugins (rows_pieces rs) (Datatypes.S (length (flat (rows_pieces rs)))) []) as (ts & -> & M); [|exact S|].
  - apply nonempty_lengths in S. lia.
  - cbn [app length] in M. change (final None []) with (@None ascii) in M. rewrite M. f_equal. now apply source_lines_rows.
Qed.
End Read.
