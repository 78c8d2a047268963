(** C74: an article with a title, nested sections, and in them texts with lists, delimited blocks and listings, comes through a whole conversion. *)
From Verif Require Import Base BlockModel BlockSpec HeaderModel ArticleModel WholeSpec OutlineSpec BoxSpec BoxDocProofs BoxHtmlProofs ManualModel ManualSpec ManualDocProofs ManualHtmlProofs.
From Verif Require ArticleSpec ArticleBlockProofs ArticleIdProofs ArticleProps ArticleHtmlProofs SectionIdModel.
Import ListNotations.
Open Scope list_scope.
Open Scope nat_scope.

Lemma body_headings els bs : Forall2 elem_for els bs -> flat_map block_headings bs = [].
Proof.
  induction 1 as [|e x els bs B _ IH]; [reflexivity|]. cbn [flat_map]. rewrite IH, app_nil_r. destruct e; cbn [elem_for] in B; [destruct B as (ns & -> & _)|destruct B as (xs & -> & _)|destruct B as (t & ns & -> & _)..]; reflexivity.
Qed.
Lemma sect_headings_of : forall s n y, sect_for n y s -> sect_headings y = map ArticleBlockProofs.line_text (section_headings s).
Proof.
  induction s as [h body subs IH] using section_rect'. intros n y Y. inversion Y as [n' h' body' subs' ns bs ys HF FB FS]; subst. unfold sect_headings. cbn [block_headings section_headings map]. destruct HF as (_ & _ & ->). f_equal. rewrite flat_map_app, (body_headings _ bs FB). cbn [app].
  clear - IH FS. revert ys FS. induction IH as [|s subs I _ IHs]; intros ys FS; inversion FS as [|y s' ys' subs' Y F]; subst; [reflexivity|]. cbn [map flat_map]. rewrite map_app, (IHs ys' F). f_equal. exact (I _ _ Y).
Qed.
Lemma sections_headings_of n ys subs : Forall2 (sect_for n) ys subs -> flat_map sect_headings ys = map ArticleBlockProofs.line_text (flat_map section_headings subs).
Proof. induction 1 as [|y s ys subs Y _ IH]; [reflexivity|]. cbn [flat_map]. rewrite map_app, IH. f_equal. now apply (sect_headings_of s n). Qed.
Lemma headings_ok : forall s n, section_ok n s = true -> forallb ArticleSpec.heading_ok (section_headings s) = true.
Proof.
  induction s as [h body subs IH] using section_rect'. intros n OK. apply section_parts in OK as (_ & H & _ & OS). cbn [section_headings forallb]. rewrite H. cbn [andb].
  induction IH as [|s subs I _ IHs]; [reflexivity|]. cbn [forallb flat_map] in *. apply andb_true_iff in OS as [O1 O]. rewrite forallb_app, (I _ O1). now apply IHs.
Qed.
Lemma all_headings_ok n l : forallb (section_ok n) l = true -> forallb ArticleSpec.heading_ok (flat_map section_headings l) = true.
Proof. induction l as [|s l IH]; [reflexivity|]. cbn [forallb flat_map]. intros H. apply andb_true_iff in H as [S H]. rewrite forallb_app, (headings_ok s n S). now apply IH. Qed.
Lemma count_all l : list_sum (map count l) = length (flat_map section_headings l).
Proof. induction l as [|s l IH]; [reflexivity|]. cbn [map list_sum fold_right flat_map]. rewrite app_length. unfold list_sum in IH. now rewrite IH. Qed.

(** The source of such an article converts, without a panic, to exactly the HTML ManualSpec.v says: what is before the first section, in a preamble if the document has a title; then each section in an element for its
    level, with a heading of that level that has the words of the heading and its id, then the elements for what is in it (paragraphs as in C67, lists as in C71, delimited blocks as in C72, listings and literal blocks
    as in C73) and its subsections, in the order of the source and nested as in the source. In particular a heading ends the paragraph or list before it, closes the sections it is not in and no others, and is
    not changed by what kinds of blocks come before it; headings get the ids they would have without those blocks. Nothing is lost, repeated or out of place, for any number of sections, blocks, items and lines. This
    holds in builds with and without debug assertions, whatever macros the plugins have, whatever Unicode says of other characters and whatever the author and revision lines would be; also in books with nothing before the
    first section (C70_book_refuted says why). [custom_subs P [] x = x]: no attribute list changes what is substituted. [adjust P n = n]: no leveloffset (C24). *)
Theorem C74_manual plugins P author_set revision_line U wants (m : manual) :
  (forall x, custom_subs P [] x = x) -> (forall n, n <= 5 -> adjust P n = n) -> book P = false \/ intro m = [] -> manual_ok m = true ->
  ManualModel.convert plugins P author_set revision_line U wants (source m) = Some (html m).
Proof.
  intros NS NO BK OK. unfold convert. destruct (whole_manual P author_set revision_line NS NO plugins m OK BK) as (o & bs & ys & c & -> & TF & C & FB & FS). pose proof (manual_parts m OK) as (_ & OI & SO).
  assert (HE : content_headings c = map ArticleBlockProofs.line_text (flat_map section_headings (sections m))).
  { destruct C as [-> | [-> ->]]; cbn [content_headings]; rewrite (body_headings _ bs FB); [cbn [app]; now apply (sections_headings_of 1)|]. inversion FS. reflexivity. }
  rewrite HE, (ArticleIdProofs.article_ids_of U _ (all_headings_ok 1 _ SO)). fold (manual_ids m). destruct (ArticleHtmlProofs.title_done wants o (title m) TF) as (x & TO & SX & DT). rewrite TO.
  destruct (content_written wants (InlineModel.dbg (p_env P)) (manual_ids m) (EvalModel.some (title m)) bs ys c _ _ C FB OI FS SO) as (dc & evs & CA & DC & W & NP). { unfold manual_ids. rewrite ArticleProps.ids_length, count_all. lia. }
  rewrite CA. rewrite <- SX in DC. rewrite (ArticleHtmlProofs.document_written wants (InlineModel.dbg (p_env P)) (manual_ids m) P o (title m) x dc evs _ eq_refl TF TO DT DC W NP). f_equal. unfold html, preamble_html, preamble. destruct (title m); reflexivity.
Qed.
(** The ids of the headings are all different, and there is one for each heading. *)
Theorem C74_ids_distinct m : NoDup (manual_ids m) /\ length (manual_ids m) = list_sum (map count (sections m)).
Proof.
  split; [|unfold manual_ids; now rewrite ArticleProps.ids_length, count_all]. set (a := ArticleSpec.Article None [] (map (fun h => ArticleSpec.Sec h [] []) (flat_map section_headings (sections m)))).
  pose proof (ArticleProps.C70_ids_distinct a) as [N _]. unfold ArticleSpec.article_ids in N. replace (flat_map ArticleSpec.section_headings (ArticleSpec.sections a)) with (flat_map section_headings (sections m)) in N; [exact N|].
  unfold a. cbn [ArticleSpec.sections]. clear. induction (flat_map section_headings (sections m)) as [|h l IH]; [reflexivity|]. cbn [map flat_map ArticleSpec.section_headings app]. f_equal. exact IH.
Qed.
Definition w (x : bytes) : item := (Plain x, []).
Definition text (x : bytes) : body := Bare (Lines [[w x]]).
Definition C74_sample : manual :=
  Manual (Some [w $"My"; (Marked Strong [$"Guide"], $"!")]) [text $"Hello"; Shown ListingBox [[w $"a"; (Special "<"%char, []); w $"b"]]]
    [ Sec [w $"One"; (Plain $"two", $",")] [Bare (Items Bulleted [Entry 0 [w $"x"] [] Numbered [Entry 0 [w $"y"] [] Bulleted []]])]
        [ Sec [w $"One"; w $"Two"] [Box SidebarBox [text $"in"; Box QuoteBox [Bare (Items Numbered [Entry 0 [w $"z"] [] Bulleted []])]]] [Sec [w $"Deep"] [] []] ];
      Sec [w $"One"; w $"two"] [text $"last"; Shown LiteralBox []; Bare (Lines [[]; [w $"end"]])] [] ].
Example C74_case : manual_ok C74_sample = true /\
  source C74_sample = InlineSpec.joined
    [ $"= My *Guide*!"; []; $"Hello"; $"----"; $"a < b"; $"----"; []; $"== One two,"; $"* x"; $".. y"; []; $"=== One Two"; $"****"; $"in"; $"____"; $". z"; $"____"; $"****"; []; $"==== Deep"; []; $"== One two"; $"last"; $"...."; $"...."; []; $"end" ] /\
  html C74_sample = $"<div id=""preamble""><div class=""sectionbody""><div class=""paragraph""><p>Hello</p></div><div class=""listingblock""><div class=""content""><pre>a &lt; b</pre></div></div></div></div>" ++
    $"<div class=""sect1""><h2 id=""_one_two"">One two,</h2><div class=""sectionbody""><div class=""ulist""><ul><li><p>x</p><div class=""olist loweralpha""><ol class=""loweralpha"" type=""a""><li><p>y</p></li></ol></div></li></ul></div>" ++
    $"<div class=""sect2""><h3 id=""_one_two_2"">One Two</h3><div class=""sidebarblock""><div class=""content""><div class=""paragraph""><p>in</p></div><div class=""quoteblock""><blockquote><div class=""olist arabic""><ol class=""arabic""><li><p>z</p></li></ol></div></blockquote></div></div></div>" ++
    $"<div class=""sect3""><h4 id=""_deep"">Deep</h4></div></div></div></div>" ++
    $"<div class=""sect1""><h2 id=""_one_two_3"">One two</h2><div class=""sectionbody""><div class=""paragraph""><p>last</p></div><div class=""literalblock""><div class=""content""><pre></pre></div></div><div class=""paragraph""><p>end</p></div></div></div>" /\
  (forall x, custom_subs (plain_params true false) [] x = x) /\ (forall n, n <= 5 -> adjust (plain_params true false) n = n) /\ book (plain_params true false) = false.
Proof. split; [vm_compute; reflexivity|]. split; [vm_compute; reflexivity|]. split; [vm_compute; reflexivity|]. split; [reflexivity|]. split; [|reflexivity]. intros n _. reflexivity. Qed.
Print Assumptions C74_manual.
Print Assumptions C74_ids_distinct.
