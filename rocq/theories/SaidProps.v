(** C76: the HTML of an article shows its words, all of them, in order, and no others. *)
From Verif Require Import Base BlockModel BlockSpec HeaderModel InlineModel WholeSpec OutlineSpec BoxSpec ManualModel ManualSpec ManualProps QuietProps SaidSpec SaidProofs.
From Verif Require ArticleProps.
Import ListNotations.
Open Scope list_scope.
Open Scope nat_scope.

(** Delete the tags, blanks and line ends from the HTML of an article of the grammar of ManualSpec.v: what is left is what the article says (SaidSpec.v), letter by letter, in the order of the source, and nothing else.
    The full property is: for every source, text that is not shown is reported. It is false, as the next theorem says, so this is for the grammar of C74 only, where nothing is lost and nothing is reported. *)
Theorem C76_words_partial plugins P author_set revision_line U wants (m : manual) :
  (forall x, custom_subs P [] x = x) -> (forall n, n <= 5 -> adjust P n = n) -> book P = false \/ intro m = [] -> manual_ok m = true ->
  exists out, ManualModel.convert plugins P author_set revision_line U wants (source m) = Some out /\ shown out = said m /\ diagnostics plugins P author_set revision_line (source m) = Some ([], []).
Proof.
  intros NS NO BK OK. exists (html m). split; [now apply C74_manual|]. split; [now apply manual_says|now apply C75_no_false_alarm].
Qed.
(** An anchor on a line of its own below a list item: it and all lines below it, up to the next blank line, are lost, and nothing is reported. *)
Theorem C76_lines_below_anchor_refuted : forall dbg,
  let go ls := ManualModel.convert [] (plain_params dbg false) (fun _ => true) (fun _ => true) ArticleProps.plain_unicode (fun _ => true) (join newline ls) in
  let ls := [ $"* item"; $"[[anchor]]"; $"more"; $"text"; []; $"after" ] in
  (exists out, go ls = Some out /\ shown out = $"itemafter" /\ out = BoxSpec.html [Bare (Items Bulleted [Entry 0 [w $"item"] [] Bulleted []]); text $"after"]) /\
  diagnostics [] (plain_params dbg false) (fun _ => true) (fun _ => true) (join newline ls) = Some ([], []) /\
  exists out, go [ $"* item"; $"more"; $"text"; []; $"after" ] = Some out /\ shown out = $"itemmoretextafter".
Proof. intros [|]; (split; [eexists; split; [vm_compute; reflexivity|split; vm_compute; reflexivity]|]; split; [vm_compute; reflexivity|]; eexists; split; vm_compute; reflexivity). Qed.
(** In a book the lines below the title of a part, up to the next blank line, are lost, and nothing is reported: the tree is the one without them. In an article they are a paragraph of the section. *)
Theorem C76_lines_below_part_refuted : forall dbg,
  (exists c s s', parsed dbg true ["= Part"; "lost words"; ""; "== Chapter"; "text"]%string = Yes c s /\ BlockModel.probs s = [] /\ parsed dbg true ["= Part"; ""; "== Chapter"; "text"]%string = Yes c s' /\ BlockModel.src s = []) /\
  exists k k' t t' s s', parsed dbg true ["== Chapter"; "kept words"]%string = Yes (Sections [] [Sect k 1 t [BParagraph no_meta CParagraph [NText $"kept words"]]]) s /\
    parsed dbg false ["== Section"; "kept words"]%string = Yes (Sections [] [Sect k' 1 t' [BParagraph no_meta CParagraph [NText $"kept words"]]]) s'.
Proof. intros [|]; (split; [do 3 eexists; vm_compute; repeat split|do 6 eexists; vm_compute; repeat split]). Qed.
(** The lines below a block macro of a plugin, up to the next blank line, are lost, and nothing is reported; those below an image are not. *)
Theorem C76_lines_below_macro_refuted : forall dbg,
  let lines l := let b := $(doc l) in match LexerModel.tokens [ $"chart" ] (S (S (length b))) (LexerModel.from_bytes b) with Ret (Some ts) => InlineSpec.cut_lines [] (map (InlineSpec.placed b) ts) | _ => [] end in
  let go l := BlockModel.document (enough_steps (lines l)) (plain_params dbg false) (fresh SubsModel.normal (lines l)) in
  (exists m c s s', go ["chart::pie[]"; "lost"; "words"; ""; "kept"]%string = Yes (Sections [BMacro no_meta m; BParagraph no_meta CParagraph [NText $"kept"]] c) s /\ BlockModel.probs s = [] /\
    go ["chart::pie[]"; ""; "kept"]%string = Yes (Sections [BMacro no_meta m; BParagraph no_meta CParagraph [NText $"kept"]] c) s') /\
  exists m c s, go ["image::pie[]"; "kept"; "words"]%string = Yes (Sections [BMacro no_meta m; BParagraph no_meta CParagraph [NText $"kept"; NNewline; NText $"words"]] c) s.
Proof. intros [|]; (split; [do 4 eexists; vm_compute; repeat split|do 3 eexists; vm_compute; repeat split]). Qed.
(** So it says nothing if there are no words, and what it says can be read off the HTML: two articles with the same HTML say the same. *)
Theorem C76_same_html plugins P author_set revision_line U wants (m m' : manual) :
  (forall x, custom_subs P [] x = x) -> (forall n, n <= 5 -> adjust P n = n) -> book P = false \/ intro m = [] /\ intro m' = [] -> manual_ok m = true -> manual_ok m' = true ->
  ManualModel.convert plugins P author_set revision_line U wants (source m) = ManualModel.convert plugins P author_set revision_line U wants (source m') -> said m = said m'.
Proof.
  intros NS NO BK OK OK' E. destruct (C76_words_partial plugins P author_set revision_line U wants m NS NO ltac:(tauto) OK) as (x & X & SX & _). destruct (C76_words_partial plugins P author_set revision_line U wants m' NS NO ltac:(tauto) OK') as (y & Y & SY & _).
  rewrite X, Y in E. injection E as ->. now rewrite <- SX, <- SY.
Qed.
Example C76_case : manual_ok C74_sample = true /\ said C74_sample = $"Helloa&lt;bOnetwo,xyOneTwoinzDeepOnetwolastend" /\ shown (html C74_sample) = $"Helloa&lt;bOnetwo,xyOneTwoinzDeepOnetwolastend" /\
  said (Manual None [Bare (Lines [[(Marked Strong [$"a"; $"b"], $","); w $"c"]]); Shown ListingBox [[(Marked Code [$"a"; $"b"], $"."); (Special ">"%char, [])]]] []) = $"ab,c`ab`.&gt;".
Proof. vm_compute. repeat split. Qed.
Print Assumptions C76_words_partial.
Print Assumptions C76_lines_below_anchor_refuted.
Print Assumptions C76_lines_below_part_refuted.
Print Assumptions C76_lines_below_macro_refuted.
Print Assumptions C76_same_html.
