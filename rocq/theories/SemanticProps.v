(** C77: an article with a title, nested sections, and in them texts with lists, delimited blocks and listings, comes through a whole conversion to semantic HTML. *)
From Verif Require Import Base BlockModel BlockSpec HeaderModel ArticleModel WholeSpec OutlineSpec BoxSpec ManualSpec SaidSpec ManualDocProofs SemanticModel SemanticProofs.
From Verif Require ArticleSpec ArticleBlockProofs ArticleIdProofs ArticleProps ArticleHtmlProofs ManualProps SectionIdModel SemanticSpec SaidProofs SemanticSaidProofs.
Import ListNotations.
Open Scope list_scope.
Open Scope nat_scope.

(** The source of an article of C74 converts, without a panic, to exactly the semantic HTML SemanticSpec.v says: paragraphs as [p] elements in which lines of the source stay lines; lists, of which only outermost ones are in an
    element of their own; delimited blocks, listings and literal blocks in the elements of the semantic backend; each section in a [section] element for its level with its heading and id; and a [section] for
    the preamble if there are a title and something before the first section. Elements are in the order of the source and nested as in the source, and nothing is lost, repeated or out of place, for any number of sections, blocks,
    items and lines. The ids of headings are those of C74. The hypotheses are those of C74. *)
Theorem C77_semantic plugins P author_set revision_line U wants (m : manual) :
  (forall x, custom_subs P [] x = x) -> (forall n, n <= 5 -> adjust P n = n) -> book P = false \/ intro m = [] -> manual_ok m = true ->
  SemanticModel.convert plugins P author_set revision_line U wants (source m) = Some (SemanticSpec.html m).
Proof.
  intros NS NO BK OK. unfold convert. destruct (whole_manual P author_set revision_line NS NO plugins m OK BK) as (o & bs & ys & c & -> & TF & C & FB & FS). pose proof (manual_parts m OK) as (_ & OI & SO).
  assert (HE : content_headings c = map ArticleBlockProofs.line_text (flat_map section_headings (sections m))).
  { destruct C as [-> | [-> ->]]; cbn [content_headings]; rewrite (ManualProps.body_headings _ bs FB); [cbn [app]; now apply (ManualProps.sections_headings_of 1)|]. inversion FS. reflexivity. }
  rewrite HE, (ArticleIdProofs.article_ids_of U _ (ManualProps.all_headings_ok 1 _ SO)). fold (manual_ids m). destruct (ArticleHtmlProofs.title_done wants o (title m) TF) as (x & TO & SX & DT). rewrite TO.
  destruct (content_written wants (InlineModel.dbg (p_env P)) (manual_ids m) (EvalModel.some (title m)) bs ys c _ _ C FB OI FS SO) as (dc & evs & CA & DC & W & NP). { unfold manual_ids. rewrite ArticleProps.ids_length, ManualProps.count_all. lia. }
  rewrite CA. rewrite <- SX in DC. rewrite (document_written wants (InlineModel.dbg (p_env P)) (manual_ids m) P o (title m) x dc evs _ eq_refl TF DT DC W NP). f_equal. unfold SemanticSpec.html, SemanticSpec.preamble_html, preamble. destruct (title m); reflexivity.
Qed.
(** Both backends show the same words: without tags, blanks and line ends, the HTML of one is the HTML of the other, and both are what the article says (SaidSpec.v). *)
Theorem C77_same_words plugins P author_set revision_line U wants (m : manual) :
  (forall x, custom_subs P [] x = x) -> (forall n, n <= 5 -> adjust P n = n) -> book P = false \/ intro m = [] -> manual_ok m = true ->
  exists x y, ManualModel.convert plugins P author_set revision_line U wants (source m) = Some x /\ SemanticModel.convert plugins P author_set revision_line U wants (source m) = Some y /\ shown x = said m /\ shown y = said m.
Proof. intros NS NO BK OK. exists (ManualSpec.html m), (SemanticSpec.html m). split; [now apply ManualProps.C74_manual|]. split; [now apply C77_semantic|]. split; [now apply SaidProofs.manual_says|now apply SemanticSaidProofs.semantic_says]. Qed.
Definition w (x : bytes) : item := (Plain x, []).
Definition text (x : bytes) : body := Bare (Lines [[w x]]).
Definition C77_sample : manual :=
  Manual (Some [w $"My"; (Marked Strong [$"Guide"], $"!")]) [Bare (Lines [[w $"Hello"]; [w $"you"]]); Shown ListingBox [[w $"a"; (Special "<"%char, []); w $"b"]; [w $"c"]]]
    [ Sec [w $"One"; (Plain $"two", $",")] [Bare (Items Bulleted [Entry 0 [w $"x"] [[w $"more"]] Numbered [Entry 0 [w $"y"] [] Bulleted []]])]
        [ Sec [w $"One"; w $"Two"] [Box SidebarBox [text $"in"; Box QuoteBox [Bare (Items Numbered [Entry 0 [w $"z"] [] Bulleted []])]]] [] ];
      Sec [w $"One"; w $"two"] [text $"last"; Shown LiteralBox []; Box OpenBox [text $"end"]] [] ].
Example C77_case : manual_ok C77_sample = true /\
  source C77_sample = InlineSpec.joined
    [ $"= My *Guide*!"; []; $"Hello"; $"you"; $"----"; $"a < b"; $"c"; $"----"; []; $"== One two,"; $"* x"; $"more"; $".. y"; []; $"=== One Two"; $"****"; $"in"; $"____"; $". z"; $"____"; $"****"; []; $"== One two"; $"last"; $"...."; $"...."; $"--"; $"end"; $"--" ] /\
  SemanticSpec.html C77_sample = $"<section id=""preamble"" aria-label=""Preamble""><p>Hello" ++ newline ++ $"you</p><div class=""listing-block""><pre>a &lt; b" ++ newline ++ $"c</pre></div></section>" ++
    $"<section class=""doc-section level-1""><h2 id=""_one_two"">One two,</h2><div class=""ulist""><ul><li>x" ++ newline ++ $"more<ol class=""loweralpha"" type=""a""><li>y</li></ol></li></ul></div>" ++
    $"<section class=""doc-section level-2""><h3 id=""_one_two_2"">One Two</h3><aside class=""sidebar""><p>in</p><div class=""quote-block""><blockquote><div class=""olist arabic""><ol class=""arabic""><li>z</li></ol></div></blockquote></div></aside></section></section>" ++
    $"<section class=""doc-section level-1""><h2 id=""_one_two_3"">One two</h2><p>last</p><div class=""literal-block""><pre></pre></div><div class=""open-block""><div class=""content""><p>end</p></div></div></section>" /\
  shown (SemanticSpec.html C77_sample) = $"Helloyoua&lt;bcOnetwo,xmoreyOneTwoinzOnetwolastend" /\
  (forall x, custom_subs (plain_params true false) [] x = x) /\ (forall n, n <= 5 -> adjust (plain_params true false) n = n) /\ book (plain_params true false) = false.
Proof. do 4 (split; [vm_compute; reflexivity|]). split; [reflexivity|]. split; [|reflexivity]. intros n _. reflexivity. Qed.
Print Assumptions C77_semantic.
Print Assumptions C77_same_words.
