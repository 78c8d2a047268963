(** More steps give the same result. *)
From Verif Require Import Base BlockModel BlockSpec.
Import ListNotations.

Definition le {A} (o o' : out A) : Prop := o = More \/ o = o'.
Lemma le_refl {A} (o : out A) : le o o.
Proof. right. reflexivity. Qed.
Lemma le_bind {A B} (o o' : out A) (k k' : A -> pst -> out B) : le o o' -> (forall a s, le (k a s) (k' a s)) -> le (bind o k) (bind o' k').
Proof. intros [->| ->] H; [left; reflexivity|]. destruct o'; cbn; [apply H|apply le_refl..]. Qed.

Section Mono.
Variables (P : params) (rec rec' : parser).
Hypothesis R : forall (A : Set) (c : call A) s, le (rec A c s) (rec' A c s).
Ltac ms := cbv zeta; repeat first
  [ apply R
  | apply le_refl
  | apply le_bind; [|intros ? ?]
  | match goal with |- le (match ?x with _ => _ end) _ => destruct x end ].
Lemma each_mono : forall ps s, le (each_paragraph P rec ps s) (each_paragraph P rec' ps s).
Proof. induction ps as [|p r IH]; intros s; cbn [each_paragraph]; [apply le_refl|]. apply le_bind; [apply le_refl|intros _ s1]. apply le_bind; [apply R|intros b s2]. apply le_bind; [apply IH|intros; apply le_refl]. Qed.
Lemma markdown_mono ls m s : le (markdown_quote P rec ls m s) (markdown_quote P rec' ls m s).
Proof. unfold markdown_quote. destruct (peeked s); [|apply le_refl]. apply le_bind; [apply each_mono|intros; apply le_refl]. Qed.
Lemma delimited_mono ls m s : le (delimited P rec ls m s) (delimited P rec' ls m s).
Proof.
  unfold delimited. destruct ls as [|l r]; [apply le_refl|]. destruct (toks l); [apply le_refl|]. destruct (to_delimiter t); [|apply le_refl]. destruct (fence _ _); [|apply le_refl]. apply le_bind; [apply le_refl|intros _ s1]. cbv zeta.
  apply le_bind; [|intros; apply le_refl]. destruct (verbatim_context _); [apply le_refl|]. apply le_bind; [apply R|intros; apply le_refl].
Qed.
Lemma a_list_mono ls m s : le (a_list P rec ls m s) (a_list P rec' ls m s).
Proof. unfold a_list. destruct ls; [apply le_refl|]. destruct (list_marker i); [|apply le_refl]. ms. Qed.
Lemma item_blocks_mono ls s : le (item_blocks P rec ls s) (item_blocks P rec' ls s).
Proof.
  unfold item_blocks. destruct (starts_nested _ _ _); [ms|]. destruct (starts_continuation ls); [ms|]. destruct ls; [|apply le_refl]. destruct (read_lines s) as [ls s1]. destruct ls; [apply le_refl|]. destruct (starts_nested _ _ _); [|apply le_refl].
  apply le_bind; [apply a_list_mono|intros; apply le_refl].
Qed.
Lemma continuations_mono s : le (continuations P rec s) (continuations P rec' s).
Proof.
  unfold continuations. destruct (read_lines s) as [ls s1]. destruct ls as [|l r]; [apply le_refl|]. destruct (starts_nested _ _ _); [apply le_bind; [apply a_list_mono|intros; apply le_refl]|]. destruct (negb _); [apply le_refl|].
  destruct (match r with [] => _ | _ => _ end); [apply le_refl|]. ms.
Qed.
Lemma extra_mono m s : le (extra_terms P rec m s) (extra_terms P rec' m s).
Proof. unfold extra_terms. destruct (read_lines s) as [ls s1]. destruct ls as [|l r]; [apply le_refl|]. destruct (starts_extra _ _); [|apply le_refl]. destruct (drop_comments _); [apply le_refl|]. ms. Qed.
Lemma desc_blocks_mono s : le (desc_blocks P rec s) (desc_blocks P rec' s).
Proof. unfold desc_blocks. destruct (read_lines s) as [ls s1]. destruct ls as [|l r]; [apply le_refl|]. apply le_bind; [apply le_refl|intros _ s2]. destruct (starts_continuation _); [apply R|]. destruct (starts_nested _ _ _); [ms|apply le_refl]. Qed.
Lemma desc_item_mono mk l r s : le (desc_item P rec mk l r s) (desc_item P rec' mk l r s).
Proof.
  unfold desc_item. apply le_bind; [apply le_refl|intros x s1]. apply le_bind; [destruct (toks (snd x)); ms|intros more s2]. apply le_bind; [apply R|intros d s3]. apply le_bind; [apply desc_blocks_mono|intros; apply le_refl].
Qed.
Lemma list_item_mono m s : le (list_item P rec m s) (list_item P rec' m s).
Proof.
  unfold list_item. destruct (read_lines s) as [ls s1]. destruct ls as [|l r]; [apply le_refl|]. destruct (list_marker l) as [mk|]; [|apply le_refl]. destruct (negb _); [apply le_refl|].
  destruct (is_description m); [apply le_bind; [apply desc_item_mono|intros; apply le_refl]|]. destruct (consume_until _ _) as [[? ?]|]; [|apply le_refl]. destruct (discard_assert _ _) as [rest2|]; [|apply le_refl].
  set (cr := match m with LS.Star _ | LS.Dash => _ | _ => _ end); clearbody cr; destruct cr as [? ?]. destruct (principle_lines r) as [more r2]. apply le_bind; [apply le_refl|intros x s2]. apply le_bind; [apply item_blocks_mono|intros; apply le_refl].
Qed.
Lemma peek_mono s : le (peek_section P rec s) (peek_section P rec' s).
Proof. unfold peek_section. destruct (read_lines s) as [ls s1]. destruct ls as [|l r]; [apply le_refl|]. destruct (drop_comments _); [apply R|apply le_refl]. Qed.
Lemma peeked_mono p s : le (peeked_to_section P rec p s) (peeked_to_section P rec' p s).
Proof. unfold peeked_to_section. destruct (ps_lines p); [apply le_refl|]. destruct (heading_text _); [|apply le_refl]. cbv zeta. do 2 (apply le_bind; [apply le_refl|intros ? ?]). ms. Qed.
Lemma section_mono s : le (section P rec s) (section P rec' s).
Proof. unfold section. apply le_bind; [apply R|intros p s1]. destruct p as [p|]; [|apply le_refl]. destruct (_ =? 0); [destruct (book P); [apply le_refl|]|]; (apply le_bind; [apply peeked_mono|intros; apply le_refl]). Qed.
Lemma chunk_mono ls m s : le (chunk P rec ls m s) (chunk P rec' ls m s).
Proof.
  unfold chunk. destruct ls as [|l r]; [apply le_refl|]. destruct (toks l) as [|t ts]; [apply le_refl|]. destruct (is_block_macro _); [apply le_refl|]. destruct (starts_list _); [apply le_bind; [apply a_list_mono|intros; apply le_refl]|].
  destruct (_ && is_discrete m); [apply le_refl|]. destruct (is_k DelimiterLine t); [destruct (match delim s with Some _ => _ | None => _ end); [apply le_refl|apply delimited_mono]|]. destruct (LineModel.one_of _ t && _); [apply le_refl|].
  destruct (is_k GreaterThan t && _); [apply markdown_mono|]. apply le_refl.
Qed.
Lemma block_mono s : le (block P rec s) (block P rec' s).
Proof.
  unfold block. destruct (read_lines s) as [ls s1]. destruct ls as [|l r]; [apply le_refl|]. destruct (comment_block _); [|apply le_refl]. apply le_bind; [apply le_refl|intros x s2]. destruct (snd x); [apply R|].
  destruct (section_start _ _ _); [|apply chunk_mono]. destruct (_ && is_some _); [apply chunk_mono|]. apply le_bind; [apply le_refl|intros _ s3]. destruct (_ || _); [apply le_refl|]. apply le_bind; [apply section_mono|intros; apply le_refl].
Qed.
Lemma sectioned_mono s : le (sectioned rec s) (sectioned rec' s).
Proof. unfold sectioned. ms. Qed.
Lemma special_mono s : le (special_sect P rec s) (special_sect P rec' s).
Proof. unfold special_sect. apply le_bind; [apply R|intros p s1]. destruct p as [p|]; [|apply le_refl]. destruct (special P p); [|apply le_refl]. apply le_bind; [apply peeked_mono|intros; apply le_refl]. Qed.
Lemma part_mono s : le (book_part P rec s) (book_part P rec' s).
Proof.
  unfold book_part. apply le_bind; [apply R|intros p s1]. destruct p as [p|]; [|apply le_refl]. destruct (_ || _); [apply le_refl|]. destruct (ps_lines p); [apply le_refl|]. destruct (toks i); [apply le_refl|]. destruct (discard_assert _ _); [|apply le_refl].
  apply le_bind; [apply le_refl|intros x s2]. apply le_bind; [apply sectioned_mono|intros; apply le_refl].
Qed.
Lemma book_mono s : le (parse_book P rec s) (parse_book P rec' s).
Proof.
  unfold parse_book. destruct (negb _); [apply le_refl|]. apply le_bind; [apply R|intros x s1]. destruct (_ && _); [apply le_refl|]. apply le_bind; [apply part_mono|intros y s2]. destruct y; [ms|].
  apply le_bind; [apply R|intros k s3]. destruct k; [apply le_bind; [apply le_refl|intros _ s4]; apply le_bind; [apply sectioned_mono|intros; apply le_refl]|]. ms.
Qed.
Lemma step_mono (A : Set) (c : call A) s : le (step P rec A c s) (step P rec' A c s).
Proof.
  destruct c; cbn [step].
  - apply block_mono.
  - unfold one_more. ms.
  - apply le_bind; [apply list_item_mono|intros i s1]. unfold one_more. ms.
  - apply continuations_mono.
  - apply extra_mono.
  - apply peek_mono.
  - apply le_bind; [apply section_mono|intros i s1]. unfold one_more. ms.
  - apply le_bind; [apply special_mono|intros i s1]. unfold one_more. ms.
  - apply le_bind; [apply part_mono|intros i s1]. unfold one_more. ms.
  - apply book_mono.
Qed.
End Mono.
Lemma run_mono P : forall n m, n <= m -> forall (A : Set) (c : call A) s, le (run n P A c s) (run m P A c s).
Proof. induction n as [|n IH]; intros m H A c s; [left; reflexivity|]. destruct m as [|m]; [lia|]. cbn [run]. apply step_mono. apply IH. lia. Qed.
Lemma document_mono P n m s : n <= m -> le (document n P s) (document m P s).
Proof.
  intros H. unfold document. apply le_bind; [apply run_mono; exact H|intros b s1]. destruct b; [apply le_refl|]. apply le_bind; [apply sectioned_mono; intros; apply run_mono; exact H|intros; apply le_refl].
Qed.
Lemma run_enough P n m (A : Set) (c : call A) s a s' : run n P A c s = Yes a s' -> n <= m -> run m P A c s = Yes a s'.
Proof. intros E H. destruct (run_mono P n m H A c s) as [G|G]; [congruence|]. rewrite <- G. exact E. Qed.
