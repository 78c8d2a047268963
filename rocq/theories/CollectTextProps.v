(** C45: collecting inline text loses, duplicates and reorders nothing. *)
From Coq Require Import Lia.
From Verif Require Import Base Text Unicode CollectTextModel CollectTextSpec CollectTextProofs.

Lemma collect_run word os l ns : collect word os l = Ret ns -> exists a, run word os (from l) = Ret a /\ ns = inlines (commit a).
Proof. unfold collect. fold (from l). destruct (run word os (from l)) as [a|]; [|discriminate]. intro E. inversion E; subst. exists a. split; reflexivity. Qed.

(** Whatever is given to the collector, in whatever order, the nodes hold all of it that is not white space, once and in order. What is asked: that white space given back before
    a callout number and a custom line comment are of one byte characters, and that dashes are two or the text is one line; the theorems below show that each is needed. *)
Theorem C45_nothing_lost word os l ns : narrow_white os -> narrow_comments os -> two_dashes os -> collect word os l = Ret ns ->
  ink (flat_map held ns) = ink (flat_map given os).
Proof.
  intros NW NC TD E. apply collect_run in E. destruct E as (a & E & ->). rewrite commit_held. exact (run_ink word os l a NW NC TD E).
Qed.
Print Assumptions C45_nothing_lost.

(** Without dashes, and with nothing given back, the white space is held as well. *)
Theorem C45_white_space word os l ns : Forall plain_op os -> narrow_comments os -> collect word os l = Ret ns -> flat_map held ns = flat_map given os.
Proof. intros P NC E. apply collect_run in E. destruct E as (a & E & ->). rewrite commit_held. exact (run_exact word os l a P NC E). Qed.
Print Assumptions C45_white_space.

(** Text is merged: no text node is empty, and no two are neighbours. *)
Theorem C45_merged word os l ns : collect word os l = Ret ns -> no_empty_text ns /\ no_neighbours ns.
Proof. intro E. apply collect_run in E. destruct E as (a & E & ->). apply commit_tidy. exact (run_tidy word os (from l) a E tidy_nil). Qed.
Print Assumptions C45_merged.

(** No panic, for tokens that are as long as their text. *)
Theorem C45_no_panic word os l : Forall located os -> dashes_placed os -> finish_committed os -> exists ns, collect word os l = Ret ns.
Proof. intros L D F. destruct (run_safe word os l L D F) as (a & E & _). exists (inlines (commit a)). unfold collect. fold (from l). rewrite E. reflexivity. Qed.
Print Assumptions C45_no_panic.

(** Every text node, and every comment that is tucked before a callout number, has the location it came from. *)
Theorem C45_locations word src p t os ns : reads src (Some p) t os -> narrow_white os -> narrow_comments os -> collect word os (Loc p p) = Ret ns -> Forall (text_located src) ns.
Proof.
  intros R NW NC E. apply collect_run in E. destruct E as (a & E & ->). refine (run_placed word src os (Some p) t _ a R NW NC _ E).
  split; cbn [from inlines pending at_ start fin].
  - constructor.
  - intros n k lc [].
  - apply slice_nil.
  - change (blen []) with 0. lia.
  - intros q Q. inversion Q. reflexivity.
  - intros f x lc Q. destruct f; discriminate Q.
  - intros _. split; [reflexivity|]. intros f x lc Q. destruct f; discriminate Q.
  - intros _ x [].
Qed.
Print Assumptions C45_locations.

Definition letters (c : N) : bool := (97 <=? c)%N && (c <=? 122)%N.
Definition t (s : string) : text := map (fun a => N_of_ascii a) (list_ascii_of_string s).

(** A space of three bytes before the space before a callout number takes the text with it. *)
Theorem C45_wide_space_refuted : exists os, Forall located os /\ two_dashes os /\ narrow_comments os /\
  exists ns, collect letters os (Loc 0 0) = Ret ns /\ ink (flat_map held ns) <> ink (flat_map given os).
Proof.
  exists [Tok (t "let x;" ++ [12288%N; 32%N]) (Loc 0 10); TrimEnd; Mark 1 (Loc 6 13)].
  split; [repeat constructor|]. split; [left; intros n l x H; destruct H as [H|[H|[H|[]]]]; discriminate H|]. split; [intros c H; destruct H as [H|[H|[H|[]]]]; discriminate H|].
  eexists. split; [vm_compute; reflexivity|vm_compute; discriminate].
Qed.
Print Assumptions C45_wide_space_refuted.

(** So does a line comment whose characters are of more than one byte. *)
Theorem C45_wide_comment_refuted : exists os, Forall located os /\ two_dashes os /\ narrow_white os /\
  exists ns, collect letters os (Loc 0 0) = Ret ns /\ ink (flat_map held ns) <> ink (flat_map given os).
Proof.
  exists [Tok (t "let x;" ++ [167%N; 32%N]) (Loc 0 9); Tuck [167%N]; Mark 1 (Loc 9 12)].
  split; [repeat constructor|]. split; [left; intros n l x H; destruct H as [H|[H|[H|[]]]]; discriminate H|]. split; [intro H; destruct H as [H|[H|[H|[]]]]; discriminate H|].
  eexists. split; [vm_compute; reflexivity|vm_compute; discriminate].
Qed.
Print Assumptions C45_wide_comment_refuted.

(** Three dashes at the end of a line are two when another line follows. *)
Theorem C45_triple_dash_refuted : exists os, Forall located os /\ narrow_comments os /\ narrow_white os /\
  exists ns, collect letters os (Loc 0 0) = Ret ns /\ ink (flat_map held ns) <> ink (flat_map given os).
Proof.
  exists [Tok (t "so ") (Loc 0 3); Dashes 3 (Loc 3 6) None; Join; Tok (t "then") (Loc 7 11)].
  split; [repeat constructor|]. split; [intros c H; destruct H as [H|[H|[H|[H|[]]]]]; discriminate H|]. split; [intro H; destruct H as [H|[H|[H|[H|[]]]]]; discriminate H|].
  eexists. split; [vm_compute; reflexivity|vm_compute; discriminate].
Qed.
Print Assumptions C45_triple_dash_refuted.

(** A bare link that follows text moves the location of the text to the end of the link: "see " is said to be the empty range after "see http://a.b". *)
Theorem C45_text_before_link_refuted : exists ns, collect letters [Tok (t "see ") (Loc 0 4); Finish 14; Mark 1 (Loc 4 14)] (Loc 0 0) = Ret ns /\
  In (Text (t "see "), Loc 14 14) ns.
Proof. eexists. split; [vm_compute; reflexivity|]. left. reflexivity. Qed.
Print Assumptions C45_text_before_link_refuted.

(** The location of dashes at the end of a line takes the first byte of the line that follows. *)
Theorem C45_dashes_location_refuted : exists ns ld lt, collect letters [Tok (t "so ") (Loc 0 3); Dashes 2 (Loc 3 5) None; Join; Tok (t "then") (Loc 6 10)] (Loc 0 0) = Ret ns /\
  In (SpacedDashes 2 Trailing, ld) ns /\ In (Text (t "then"), lt) ns /\ start lt < fin ld.
Proof. eexists _, (Loc 2 7), (Loc 6 10). split; [vm_compute; reflexivity|]. split; [right; left; reflexivity|]. split; [right; right; left; reflexivity|]. cbn. lia. Qed.
Print Assumptions C45_dashes_location_refuted.

(** The hypotheses are met: text over two lines with a comment, a callout number, dashes and a link. *)
Definition doc : list op :=
  [Tok (t "let x = 1;  ") (Loc 0 12); Tok (t "// ") (Loc 12 15); Tuck (t "//"); TrimEnd; Mark 1 (Loc 15 18); Join;
   Tok (t "see ") (Loc 19 23); Commit; Finish 33; Mark 2 (Loc 23 33); Tok (t " too") (Loc 33 37)].
Example doc_reads : reads (b "let x = 1;  // <1>" ++ [ascii_of_nat 10] ++ b "see http://a.b too") (Some 0) false doc.
Proof.
  apply R_tok; [reflexivity..|]. apply R_tok; [reflexivity..|]. apply R_tuck, R_trim, R_mark, R_join. apply R_tok; [reflexivity..|]. apply R_finish. apply R_tok; [reflexivity..|]. apply R_end.
Qed.
Example doc_narrow : narrow_white doc /\ narrow_comments doc /\ two_dashes doc.
Proof.
  split; [|split].
  - intros _ o c I J _. repeat (destruct I as [<-|I]; [cbn in J; repeat (destruct J as [J|J]; [inversion J; subst; unfold one_byte; lia|]); contradiction|]). contradiction.
  - intros c I. repeat (destruct I as [I|I]; [try discriminate I; inversion I; subst; repeat constructor|]). contradiction.
  - left. intros n l x I. repeat (destruct I as [I|I]; [discriminate I|]). contradiction.
Qed.
Example doc_collect : collect letters doc (Loc 0 0) = Ret
  [(Text (t "let x = 1;  "), Loc 0 12); (CalloutTuck (t "// "), Loc 12 15); (Other 1, Loc 15 18); (Newline, Loc 18 19);
   (Text (t "see "), Loc 19 23); (Other 2, Loc 23 33); (Text (t " too"), Loc 33 37)].
Proof. vm_compute. reflexivity. Qed.
Definition dashing : list op := [Tok (t "a") (Loc 0 1); Dashes 2 (Loc 1 3) (Some 98%N); Tok (t "b ") (Loc 3 5); Dashes 2 (Loc 5 7) (Some 32%N); Tok (t "c") (Loc 8 9); Join; Dashes 2 (Loc 10 12) (Some 32%N); Tok (t "d") (Loc 13 14)].
Example dashing_collect : collect letters dashing (Loc 0 0) = Ret
  [(Text (t "a"), Loc 0 1); (Symbol 2, Loc 1 3); (Text (t "b"), Loc 3 4); (SpacedDashes 2 NoNewline, Loc 4 8); (Text (t "c"), Loc 8 9); (SpacedDashes 2 Leading, Loc 9 13); (Text (t "d"), Loc 13 14)].
Proof. vm_compute. reflexivity. Qed.
Example dashing_safe : Forall located dashing /\ dashes_placed dashing /\ finish_committed dashing.
Proof.
  split; [repeat constructor|]. split.
  - intros f n l x r E. do 8 (destruct f as [|? f]; [first [discriminate E|left; reflexivity|injection E as <- <- <- <-; right; cbn; lia]|injection E as _ E]). destruct f; discriminate E.
  - intros f e r E. do 8 (destruct f as [|? f]; [discriminate E|injection E as _ E]). destruct f; discriminate E.
Qed.
