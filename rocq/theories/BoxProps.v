(** C72: a text with delimited blocks in delimited blocks comes through a whole conversion unchanged. *)
From Verif Require Import Base BlockModel BlockSpec WholeModel WholeSpec OutlineModel OutlineSpec BoxSpec BoxDocProofs BoxHtmlProofs.
Import ListNotations.

(** The source of a text with delimited blocks converts, without a panic, to: the elements for the text and the lists, as in C67 and C71; an element for each delimited block, of its kind, with the elements for what is
    in it, in order, and nothing else. What is between two delimiters stays in the block, what is after it stays out, however deep the blocks are in each other; a delimiter ends the block it belongs to and the
    paragraph or the list before it, with and without blank lines. This holds in articles and books and in builds with and without debug assertions. Listings and literal blocks can be among the blocks: see C73. [custom_subs P [] x = x]: no attribute list
    changes what is substituted, as in C67. *)
Theorem C72_blocks plugins P author_set revision_line wants (l : list body) :
  (forall x, custom_subs P [] x = x) -> bodies_ok l = true ->
  OutlineModel.convert plugins P author_set revision_line wants (source l) = Some (html l).
Proof.
  intros NS OK. unfold convert. destruct (parse_boxes P NS plugins author_set revision_line l OK) as (c & bs & -> & C & F).
  destruct (boxes_written wants (InlineModel.dbg (p_env P)) [] P bs _ eq_refl F (elems_ok l OK)) as (y & L & H). replace (content_in c) with (Some y) by (symmetry; destruct C as [-> | ->]; exact L). rewrite <- doc_html. exact H.
Qed.

(** blocks of all kinds in each other, with text and lists in them and between them, with and without blank lines *)
Definition w (x : bytes) : item := (Plain x, []).
Definition text (x : bytes) : body := Bare (Lines [[w x]]).
Definition list_of (k : list_kind) (x : bytes) : body := Bare (Items k [Entry 0 [w x] [] Bulleted []]).
Definition C72_sample : list body :=
  [ text $"before"; Box (ExampleBox 0) [ text $"one"; Box SidebarBox [ Box (ExampleBox 0) [ list_of Bulleted $"a" ]; list_of Numbered $"b"; Box QuoteBox [] ]; Bare (Lines [[]; [w $"two"]; []]); Box (ExampleBox 2) [ text $"three"; text $"four" ] ];
    Box OpenBox [ list_of Bulleted $"c"; Box QuoteBox [ text $"five" ]; list_of Bulleted $"d" ]; text $"after" ].
Example C72_case : bodies_ok C72_sample = true /\
  source C72_sample = InlineSpec.joined [ $"before"; $"===="; $"one"; $"****"; $"===="; $"* a"; $"===="; $". b"; $"____"; $"____"; $"****"; []; $"two"; []; $"======"; $"three"; []; $"four"; $"======"; $"===="; $"--"; $"* c"; $"____"; $"five"; $"____"; $"* d"; $"--"; $"after" ] /\
  html C72_sample = $"<div class=""paragraph""><p>before</p></div><div class=""exampleblock""><div class=""content""><div class=""paragraph""><p>one</p></div><div class=""sidebarblock""><div class=""content""><div class=""exampleblock""><div class=""content""><div class=""ulist""><ul><li><p>a</p></li></ul></div></div></div><div class=""olist arabic""><ol class=""arabic""><li><p>b</p></li></ol></div><div class=""quoteblock""><blockquote></blockquote></div></div></div><div class=""paragraph""><p>two</p></div><div class=""exampleblock""><div class=""content""><div class=""paragraph""><p>three</p></div><div class=""paragraph""><p>four</p></div></div></div></div></div><div class=""openblock""><div class=""content""><div class=""ulist""><ul><li><p>c</p></li></ul></div><div class=""quoteblock""><blockquote><div class=""paragraph""><p>five</p></div></blockquote></div><div class=""ulist""><ul><li><p>d</p></li></ul></div></div></div><div class=""paragraph""><p>after</p></div>" /\
  (forall x, custom_subs (plain_params true false) [] x = x).
Proof. split; [|split; [|split]]; [vm_compute; reflexivity..|reflexivity]. Qed.

(** A block directly in a block with the same delimiters is no block in it: the second delimiter ends the first block. And delimiters of four and of 260 equal signs are taken for the same. *)
Theorem C72_same_delimiters_refuted :
  let run l := OutlineModel.convert [] (plain_params true false) (fun _ => true) (fun _ => true) (fun _ => true) (source l) in
  let same n := [Box (ExampleBox 0) [Box (ExampleBox n) [text $"a"]]] in
  apart false (same 0) = true /\ run (same 0) <> Some (html (same 0)) /\
  delimiter_line (ExampleBox 0) <> delimiter_line (ExampleBox 256) /\ run (same 256) <> Some (html (same 256)) /\ run (same 256) = run (same 0) /\
  run (same 0) = Some ($"<div class=""exampleblock""><div class=""content""></div></div><div class=""paragraph""><p>a</p></div><div class=""exampleblock""><div class=""content""></div></div>").
Proof. vm_compute. repeat split; discriminate. Qed.
Print Assumptions C72_blocks.
Print Assumptions C72_same_delimiters_refuted.
