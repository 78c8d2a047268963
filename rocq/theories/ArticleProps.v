(** C70: an article of texts in sections comes through a whole conversion with its headings, ids and nesting. *)
From Verif Require Import Base BlockModel BlockSpec HeaderModel ArticleModel WholeSpec ArticleSpec ArticleLexProofs ArticleBlockProofs ArticleDocProofs ArticleIdProofs ArticleHtmlProofs.
From Verif Require SectionIdModel.
Import ListNotations.
Open Scope list_scope.
Open Scope nat_scope.

Lemma par_headings bs pars : Forall2 WholeBlockProofs.block_for bs pars -> flat_map block_headings bs = [].
Proof. induction 1 as [|x par bs pars B _ IH]; [reflexivity|]. destruct B as (ns & -> & _). exact IH. Qed.
Lemma sect_headings_of : forall s n y, sect_for n y s -> sect_headings y = map line_text (section_headings s).
Proof.
  induction s as [h body subs IH] using section_rect'. intros n y Y. inversion Y as [n' h' body' subs' ns bs ys HF FB FS]; subst. unfold sect_headings. cbn [block_headings section_headings map]. destruct HF as (_ & _ & ->). f_equal. rewrite flat_map_app, (par_headings bs _ FB). cbn [app].
  clear - IH FS. revert ys FS. induction IH as [|s subs I _ IHs]; intros ys FS; inversion FS as [|y s' ys' subs' Y F]; subst; [reflexivity|]. cbn [map flat_map]. rewrite map_app, (IHs ys' F). f_equal. exact (I _ _ Y).
Qed.
Lemma sections_headings_of n ys subs : Forall2 (sect_for n) ys subs -> flat_map sect_headings ys = map line_text (flat_map section_headings subs).
Proof. induction 1 as [|y s ys subs Y _ IH]; [reflexivity|]. cbn [flat_map]. rewrite map_app, IH. f_equal. now apply (sect_headings_of s n). Qed.
Lemma headings_ok : forall s n, section_ok n s = true -> forallb heading_ok (section_headings s) = true.
Proof.
  induction s as [h body subs IH] using section_rect'. intros n OK. cbn [section_ok] in OK. apply andb_true_iff in OK as [OK OS]. apply andb_true_iff in OK as [OK _]. apply andb_true_iff in OK as [_ H]. cbn [section_headings forallb]. rewrite H. cbn [andb].
  induction IH as [|s subs I _ IHs]; [reflexivity|]. cbn [forallb flat_map] in *. apply andb_true_iff in OS as [O1 O]. rewrite forallb_app, (I _ O1). now apply IHs.
Qed.
Lemma all_headings_ok n l : forallb (section_ok n) l = true -> forallb heading_ok (flat_map section_headings l) = true.
Proof. induction l as [|s l IH]; [reflexivity|]. cbn [forallb flat_map]. intros H. apply andb_true_iff in H as [S H]. rewrite forallb_app, (headings_ok s n S). now apply IH. Qed.
Lemma ids_length hs : forall used, length (ids_from used hs) = length hs.
Proof. induction hs as [|h hs IH]; intros used; [reflexivity|]. cbn [ids_from length]. now rewrite IH. Qed.
Lemma count_all l : list_sum (map count l) = length (flat_map section_headings l).
Proof. induction l as [|s l IH]; [reflexivity|]. cbn [map list_sum fold_right flat_map]. rewrite app_length. unfold list_sum in IH. now rewrite IH. Qed.

(** The source of an article converts, without a panic, to exactly the HTML ArticleSpec.v says: the text before the first section, in a preamble if the document has a title; then each section in an element for its
    level, with a heading of that level that has the words of the heading and its id, then its paragraphs and its subsections, in the order of the source and nested as in the source. Nothing is lost, repeated
    or out of place, for any number of sections, nested up to five levels deep, and whatever else is in the sections. This holds in builds with and without debug assertions, whatever macros the plugins have, whatever
    Unicode says of other characters and whatever the author and revision lines would be; also in books if there is no text before the first section. [adjust P n = n]: no leveloffset (C42). *)
Theorem C70_article plugins P author_set revision_line U wants (a : article) :
  custom_subs P [] SubsModel.normal = SubsModel.normal -> (forall n, n <= 5 -> adjust P n = n) -> book P = false \/ paragraphs (intro a) = [] -> article_ok a = true ->
  convert plugins P author_set revision_line U wants (source a) = Some (html a).
Proof.
  intros NS NO BK OK. unfold convert. destruct (whole_article P author_set revision_line NS NO plugins a OK BK) as (o & bs & ys & c & -> & TF & C & FB & FS).
  assert (SO : forallb (section_ok 1) (sections a) = true) by (unfold article_ok in OK; now apply andb_true_iff in OK as [_ OK]).
  assert (HE : content_headings c = map line_text (flat_map section_headings (sections a))).
  { destruct C as [-> | [-> ->]]; cbn [content_headings]; rewrite (par_headings bs _ FB); [cbn [app]; now apply (sections_headings_of 1)|]. inversion FS. reflexivity. }
  rewrite HE, (article_ids_of U _ (all_headings_ok 1 _ SO)). fold (article_ids a). destruct (title_done wants o (title a) TF) as (x & TO & SX & DT). rewrite TO.
  destruct (content_written wants (InlineModel.dbg (p_env P)) (article_ids a) (EvalModel.some (title a)) bs ys c _ _ C FB FS SO) as (dc & evs & CA & DC & W & NP). { unfold article_ids. rewrite ids_length, count_all. lia. }
  rewrite CA. rewrite <- SX in DC. rewrite (document_written wants (InlineModel.dbg (p_env P)) (article_ids a) P o (title a) x dc evs _ eq_refl TF TO DT DC W NP). f_equal. unfold html, preamble_html, preamble, WholeSpec.html. destruct (title a); reflexivity.
Qed.
(** The ids of the headings are all different, and there is one for each heading. *)
Theorem C70_ids_distinct a : NoDup (article_ids a) /\ length (article_ids a) = list_sum (map count (sections a)).
Proof.
  split; [|unfold article_ids; now rewrite ids_length, count_all]. unfold article_ids. generalize (flat_map section_headings (sections a)). intros hs.
  assert (F : forall used x, ~ In (pick used x) used).
  { intros used x I. assert (T : taken used (pick used x) = true) by (unfold taken; apply existsb_exists; exists (pick used x); split; [exact I|now apply bytes_eqb_eq]). unfold pick in *. destruct (taken used x) eqn:TX; [|congruence].
    destruct (find _ _) as [n|] eqn:E; [apply find_some in E as [_ E]; rewrite T in E; discriminate E|]. pose proof (find_none _ _ E) as N. assert (IN : incl (map (numbered_id x) (List.seq 2 (S (length used)))) used).
    { intros y Y. apply in_map_iff in Y as (m & <- & M). specialize (N m M). apply negb_false_iff in N. unfold taken in N. apply existsb_exists in N as (z & Z & EZ). apply bytes_eqb_eq in EZ. now subst. }
    apply NoDup_incl_length in IN; [rewrite map_length, seq_length in IN; lia|]. apply FinFun.Injective_map_NoDup; [|apply seq_NoDup]. intros m1 m2 EQ. apply (SectionIdProofs.numbered_inj (code_points x) (Some 95%N)). rewrite !numbered_cp. now rewrite EQ. }
  assert (G : forall used, NoDup (ids_from used hs) /\ forall y, In y (ids_from used hs) -> ~ In y used).
  { induction hs as [|h hs IH]; intros used; [split; [constructor|intros y []]|]. cbn [ids_from]. destruct (IH (pick used (plain_id h) :: used)) as [N I]. split; [constructor; [intros J; apply (I _ J); now left|exact N]|]. intros y [<-|J]; [apply F|]. intros U. apply (I _ J). now right. }
  apply (G []).
Qed.
Definition w (x : bytes) : item := (Plain x, []).
Definition C70_sample : article :=
  Article (Some [w $"My"; (Marked Strong [$"Guide"], $"!")]) [[w $"Hello"]; []; [w $"there"]]
    [ Sec [w $"One"; (Plain $"two", $",")] [[w $"first"; (Special "&"%char, [])]; []; []] [Sec [w $"One"; w $"Two"] [] [Sec [w $"Deep"] [[]; [w $"y"]] []]; Sec [(Marked Code [$"a"; $"B"], $"."); w $"12"] [] []]; Sec [w $"One"; w $"two"] [[w $"last"]] [] ].
Definition plain_unicode : SectionIdModel.unicode := SectionIdModel.mkUnicode (fun _ => false) (fun c => [c]) (fun _ => false).
Example C70_case : article_ok C70_sample = true /\
  source C70_sample = InlineSpec.joined
    [ $"= My *Guide*!"; []; $"Hello"; []; $"there"; []; $"== One two,"; $"first &"; []; []; []; $"=== One Two"; []; $"==== Deep"; []; $"y"; []; $"=== `a B`. 12"; []; $"== One two"; $"last" ] /\
  html C70_sample = $"<div id=""preamble""><div class=""sectionbody""><div class=""paragraph""><p>Hello</p></div><div class=""paragraph""><p>there</p></div></div></div>" ++
    $"<div class=""sect1""><h2 id=""_one_two"">One two,</h2><div class=""sectionbody""><div class=""paragraph""><p>first &amp;</p></div>" ++
    $"<div class=""sect2""><h3 id=""_one_two_2"">One Two</h3><div class=""sect3""><h4 id=""_deep"">Deep</h4><div class=""paragraph""><p>y</p></div></div></div>" ++
    $"<div class=""sect2""><h3 id=""_a_b_12""><code>a B</code>. 12</h3></div></div></div>" ++
    $"<div class=""sect1""><h2 id=""_one_two_3"">One two</h2><div class=""sectionbody""><div class=""paragraph""><p>last</p></div></div></div>" /\
  custom_subs (plain_params true false) [] SubsModel.normal = SubsModel.normal /\ (forall n, n <= 5 -> adjust (plain_params true false) n = n) /\ book (plain_params true false) = false.
Proof. split; [vm_compute; reflexivity|]. split; [vm_compute; reflexivity|]. split; [vm_compute; reflexivity|]. split; [vm_compute; reflexivity|]. split; [|reflexivity]. intros n _. reflexivity. Qed.
Example C70_book_case : paragraphs (intro (Article (title C70_sample) [[]] (sections C70_sample))) = [] /\ book (plain_params true true) = true.
Proof. split; reflexivity. Qed.
(** In a book the chapter after the text is lost if its heading and text are the last lines of the source: it was put back as peeked lines, and parse_book.rs takes the lexer being at its end for the end of the document. *)
Theorem C70_book_refuted : exists a, article_ok a = true /\ html a <> [] /\
  convert [] (plain_params true true) (fun _ => true) (fun _ => true) plain_unicode (fun _ => true) (source a) = Some (WholeSpec.html (intro a)) /\ html a <> WholeSpec.html (intro a).
Proof. exists (Article None [[w $"Hello"]] [Sec [w $"Chapter"] [[w $"text"]] []]). repeat split; vm_compute; try reflexivity; discriminate. Qed.
Print Assumptions C70_article.
Print Assumptions C70_ids_distinct.
Print Assumptions C70_book_refuted.
