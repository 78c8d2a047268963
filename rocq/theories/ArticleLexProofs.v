(** The tokens of an article (C70). *)
From Verif Require Import Base Utf8 LexerModel LexerSpec LexerProofs LineModel InlineModel InlineSpec WholeModel WholeSpec WholeLexProofs WholePieceProofs.
From Verif Require ArticleSpec.
Import ListNotations.
Open Scope list_scope.
Open Scope nat_scope.

(** ** Rows: lines of text and headings *)
Inductive row := Text (l : line) | Head (n : nat) (l : line).
Definition marks (n : nat) : bytes := repeat "="%char (S n).
Definition row_source (r : row) : bytes := match r with Text l => line_source l | Head n l => ArticleSpec.heading_source n l end.
Definition row_pieces (r : row) : list piece := match r with Text l => line_pieces l | Head n l => (EqualSigns, marks n) :: space :: line_pieces l end.
Definition row_ok (r : row) : bool := match r with Text l => line_ok l | Head n l => (n <=? 5) && match l with [] => false | _ => forallb item_ok l end end.
Definition rows_pieces (rs : list row) : list piece := sepj (Newline, newline) (map row_pieces rs).
Definition rows_source (rs : list row) : bytes := join newline (map row_source rs).
Lemma flat_row r : flat (row_pieces r) = row_source r.
Proof. destruct r as [l|n l]; cbn [row_pieces row_source]; [apply flat_line|]. unfold space. rewrite !flat_cons, flat_line. reflexivity. Qed.
Lemma flat_rows rs : flat (rows_pieces rs) = rows_source rs.
Proof. unfold rows_pieces, rows_source. rewrite flat_sepj, map_map. f_equal. apply map_ext. apply flat_row. Qed.
Lemma line_items l : line_ok l = true -> forallb item_ok l = true.
Proof. unfold line_ok. intros H. now apply andb_true_iff in H as [H _]. Qed.
Lemma row_items r : row_ok r = true -> forallb item_ok (match r with Text l | Head _ l => l end) = true.
Proof. destruct r as [l|n l]; cbn [row_ok]; [apply line_items|]. intros H. apply andb_true_iff in H as [_ H]. now destruct l. Qed.

Section Read.
Variable plugins : list bytes.
Notation scans := (scans plugins).
Lemma scans_row r : forall prev rest, row_ok r = true -> tail rest -> scans prev (row_pieces r) rest.
Proof.
  intros prev rest H T. pose proof (row_items r H) as I. destruct r as [l|n l]; cbn [row_pieces]; [now apply scans_line|]. cbn [row_ok] in H. apply andb_true_iff in H as [N H]. apply Nat.leb_le in N.
  unfold space. cbn [WholeLexProofs.scans]. rewrite flat_cons. split; [discriminate|]. split. { unfold marks. clear. induction (S n); [constructor|]. cbn [repeat]. constructor; [reflexivity|exact IHn0]. }
  split; [discriminate|]. split. { unfold marks. generalize (starts_line prev). intros [|]; (destruct n as [|[|[|[|[|[|n]]]]]]; [reflexivity..|lia]). }
  split; [discriminate|]. split; [repeat constructor|]. split; [discriminate|]. split; [|now apply scans_line]. apply scans_space. destruct l as [|i l]; [discriminate H|]. cbn [forallb] in H. apply andb_true_iff in H as [J _].
  pose proof (solid_item i J) as SJ. rewrite flat_line. unfold line_source. cbn [map join]. rewrite <- flat_item. destruct l; [exact SJ|now apply solid_app].
Qed.
Lemma scans_rows rs : forall prev, forallb row_ok rs = true -> scans prev (rows_pieces rs) [].
Proof.
  induction rs as [|l ls IH]; intros prev H; [exact I|]. cbn [forallb] in H. apply andb_true_iff in H as [L H]. destruct ls as [|m ls].
  - cbn [rows_pieces map sepj]. now apply scans_row.
  - change (rows_pieces (l :: m :: ls)) with (row_pieces l ++ (Newline, newline) :: rows_pieces (m :: ls)). apply scans_app. split; [apply scans_row; [exact L|reflexivity]|].
    cbn [WholeLexProofs.scans]. split; [discriminate|]. split; [repeat constructor|]. split; [discriminate|]. split; [apply s_newline|now apply IH].
Qed.

(** ** The lines of tokens *)
Fixpoint rows_at (p : nat) (prev : option ascii) (rs : list row) : list (list tok) :=
  match rs with
  | [] => []
  | [r] => match lay p prev (row_pieces r) with [] => [] | ts => [ts] end
  | r :: m => lay p prev (row_pieces r) :: rows_at (p + length (row_source r) + 1) (Some LF) m
  end.
Lemma row_no_newline r : row_ok r = true -> forallb (fun x : piece => match fst x with Newline => false | _ => true end) (row_pieces r) = true.
Proof. intros H. apply row_items in H. destruct r as [l|n l]; cbn [row_pieces forallb space fst andb]; now apply line_no_newline. Qed.
Lemma source_lines_rows rs : forall p prev, forallb row_ok rs = true -> source_lines [] (lay p prev (rows_pieces rs)) = rows_at p prev rs.
Proof.
  induction rs as [|l ls IH]; intros p prev H; [reflexivity|]. cbn [forallb] in H. apply andb_true_iff in H as [L H]. destruct ls as [|m ls].
  - cbn [rows_pieces map sepj rows_at]. rewrite <- (app_nil_r (lay _ _ _)) at 1. rewrite source_lines_run by (apply not_newline; now apply row_no_newline). cbn [app source_lines]. now destruct (lay p prev (row_pieces l)).
  - change (rows_pieces (l :: m :: ls)) with (row_pieces l ++ (Newline, newline) :: rows_pieces (m :: ls)). rewrite lay_app. rewrite source_lines_run by (apply not_newline; now apply row_no_newline).
    change (rows_at p prev (l :: m :: ls)) with (lay p prev (row_pieces l) :: rows_at (p + length (row_source l) + 1) (Some LF) (m :: ls)).
    cbn [app lay source_lines]. change (is_k Newline _) with true. cbn iota. cbn [app]. f_equal. rewrite flat_row. apply IH. exact H.
Qed.
Lemma lex_rows rs : forallb row_ok rs = true -> lex plugins (rows_source rs) = Some (rows_at 0 None rs).
Proof.
  intros H. pose proof (scans_rows rs None H) as S. unfold lex. rewrite <- flat_rows. change (from_bytes (flat (rows_pieces rs))) with (LexerProofs.at_ [] (flat (rows_pieces rs)) 0).
  destruct (tokens_of plugins (rows_pieces rs) (Datatypes.S (length (flat (rows_pieces rs)))) []) as (ts & -> & M); [|exact S|].
  - apply nonempty_lengths in S. lia.
  - cbn [app length] in M. change (final None []) with (@None ascii) in M. rewrite M. f_equal. now apply source_lines_rows.
Qed.
End Read.
