(** C71: a text with lists in lists comes through a whole conversion unchanged. *)
From Verif Require Import Base BlockModel BlockSpec WholeModel WholeSpec OutlineModel OutlineSpec OutlineDocProofs OutlineHtmlProofs.
Import ListNotations.

(** The source of a text with lists converts, without a panic, to: an element for each paragraph, as in C67; an element for each list, of its kind, in which there is an element for each item, in order, with the
    text of the item and then the list in it, if it has one, and nothing else. Items stay at the level of their markers, whatever kinds of lists are in each other, however deep (up to 255 levels) and whatever
    blank lines there are between items; the text after a list is not in the list; numbered lists are numbered by their depth. This holds in articles and books and in builds with and without debug assertions.
    [custom_subs P [] normal = normal]: as in C67. *)
Theorem C71_lists plugins P author_set revision_line wants (ps : list part) :
  custom_subs P [] SubsModel.normal = SubsModel.normal -> document_ok ps = true ->
  OutlineModel.convert plugins P author_set revision_line wants (source ps) = Some (html ps).
Proof.
  intros NS OK. unfold convert. destruct (parse_outline P NS plugins author_set revision_line ps OK) as (c & bs & -> & C & F). unfold document_ok in OK. apply andb_true_iff in OK as [OK _].
  destruct (outline_written wants (InlineModel.dbg (p_env P)) [] P bs (elems ps) eq_refl F (elems_ok ps OK)) as (l & L & H). replace (content_in c) with (Some l) by (symmetry; destruct C as [-> | ->]; exact L). rewrite <- doc_html. exact H.
Qed.
(** Blank lines between items, also before an item of a list in an item, make no difference. *)
Fixpoint tight_ok n e {struct e} : entry_ok n (tight_entry e) = entry_ok n e.
Proof. destruct e as [bl f more k subs]. cbn [tight_entry entry_ok]. f_equal. induction subs as [|e subs IH]; [reflexivity|]. cbn [map forallb]. now rewrite tight_ok, IH. Qed.
Fixpoint tight_html n e {struct e} : entry_html n (tight_entry e) = entry_html n e.
Proof.
  destruct e as [bl f more k subs]. cbn [tight_entry entry_html]. do 3 f_equal. assert (H : concat (map (entry_html (S n)) (map tight_entry subs)) = concat (map (entry_html (S n)) subs)) by (induction subs as [|e subs IH]; [reflexivity|]; cbn [map concat]; now rewrite tight_html, IH).
  destruct subs as [|e subs]; [reflexivity|]. cbn [map] in *. now rewrite H.
Qed.
Theorem C71_blank_lines plugins P author_set revision_line wants (ps : list part) :
  custom_subs P [] SubsModel.normal = SubsModel.normal -> document_ok ps = true ->
  OutlineModel.convert plugins P author_set revision_line wants (source ps) = OutlineModel.convert plugins P author_set revision_line wants (source (map tight ps)).
Proof.
  intros NS OK. assert (OK' : document_ok (map tight ps) = true).
  { unfold document_ok in *. apply andb_true_iff in OK as [OK SP]. apply andb_true_iff. split.
    - clear SP. induction ps as [|p ps IH]; [reflexivity|]. cbn [map forallb] in *. apply andb_true_iff in OK as [OP OK]. rewrite IH by exact OK. rewrite andb_true_r. destruct p as [ls|k es]; [exact OP|]. cbn [tight part_ok] in *. destruct es as [|e es]; [exact OP|].
      cbn [map]. rewrite <- OP. cbn [forallb]. rewrite tight_ok. f_equal. clear. induction es as [|e es IH]; [reflexivity|]. cbn [map forallb]. now rewrite tight_ok, IH.
    - clear OK. revert SP. generalize false. induction ps as [|p ps IH]; intros a SP; [reflexivity|]. destruct p as [ls|k es]; cbn [map tight separated] in *; [now apply IH|]. apply andb_true_iff in SP as [-> SP]. now apply IH. }
  rewrite !C71_lists by assumption. f_equal. unfold html. f_equal. rewrite map_map. apply map_ext. intros [ls|k es]; [reflexivity|]. cbn [tight part_html]. do 2 f_equal. rewrite map_map. apply map_ext. intros e. symmetry. apply tight_html.
Qed.

(** four levels of lists of both kinds, text on more lines, blank lines, text between lists *)
Definition w (x : bytes) : item := (Plain x, []).
Definition C71_sample : list part :=
  [ Items Numbered [ Entry 0 [w $"one"] [[w $"more"]] Bulleted [ Entry 1 [(Marked Strong [$"x"], $"!")] [] Numbered [ Entry 0 [w $"y"] [] Bulleted []; Entry 2 [(Special "<"%char, [])] [] Bulleted [] ]; Entry 0 [w $"12"] [] Bulleted [] ];
                     Entry 3 [w $"two"] [] Bulleted [] ];
    Lines [ [w $"Hello"]; []; [w $"there"] ]; Items Bulleted [ Entry 0 [w $"last"] [] Bulleted [] ] ].
Example C71_case : document_ok C71_sample = true /\
  source C71_sample = InlineSpec.joined [ $". one"; $"more"; []; $"** *x*!"; $"... y"; []; []; $"... <"; $"** 12"; []; []; []; $". two"; []; $"Hello"; []; $"there"; []; $"* last" ] /\
  html C71_sample = $"<div class=""olist arabic""><ol class=""arabic""><li><p>one more</p><div class=""ulist""><ul><li><p><strong>x</strong>!</p><div class=""olist lowerroman""><ol class=""lowerroman"" type=""i""><li><p>y</p></li><li><p>&lt;</p></li></ol></div></li><li><p>12</p></li></ul></div></li><li><p>two</p></li></ol></div><div class=""paragraph""><p>Hello</p></div><div class=""paragraph""><p>there</p></div><div class=""ulist""><ul><li><p>last</p></li></ul></div>" /\
  custom_subs (plain_params true false) [] SubsModel.normal = SubsModel.normal /\ source (map tight C71_sample) <> source C71_sample.
Proof. vm_compute. repeat split. discriminate. Qed.

(** Without the condition that there is text between two lists this is false: blank lines do not end a list. A list of another kind that follows becomes a list in the last item; one of the same kind goes on with it. *)
Definition a_list (k : list_kind) (x : bytes) : part := Items k [Entry 0 [w x] [] Bulleted []].
Theorem C71_lists_apart_refuted :
  let run ps := OutlineModel.convert [] (plain_params true false) (fun _ => true) (fun _ => true) (fun _ => true) (source ps) in
  let other := [a_list Bulleted $"a"; Lines []; a_list Numbered $"b"] in let same := [a_list Bulleted $"a"; Lines []; a_list Bulleted $"b"] in
  forallb part_ok other = true /\ run other <> Some (html other) /\ run other = Some ($"<div class=""ulist""><ul><li><p>a</p><div class=""olist loweralpha""><ol class=""loweralpha"" type=""a""><li><p>b</p></li></ol></div></li></ul></div>") /\
  forallb part_ok same = true /\ run same <> Some (html same) /\ run same = Some ($"<div class=""ulist""><ul><li><p>a</p></li><li><p>b</p></li></ul></div>").
Proof. vm_compute. repeat split; discriminate. Qed.
Print Assumptions C71_lists.
Print Assumptions C71_blank_lines.
Print Assumptions C71_lists_apart_refuted.
