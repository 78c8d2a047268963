(** C67: a text of words, numbers, punctuation and formatted words comes through a whole conversion unchanged. *)
From Verif Require Import Base BlockModel BlockSpec HeaderModel WholeModel WholeSpec WholePieceProofs WholeBlockProofs WholeHtmlProofs.
Import ListNotations.

(** The source of a text converts, without a panic, to one element for each of its paragraphs, which holds the text of the paragraph: each word, number and punctuation mark as it is, in order, a space between
    phrases and where a line ends, special characters escaped, formatted words in the element for their format, and nothing else. This holds in articles and books, in builds with and without debug assertions,
    whatever macros the plugins have, whatever Unicode says of other characters, and whatever the author and revision lines would be. [custom_subs P [] normal = normal]: a paragraph without attributes has the
    normal substitutions (customize_subs.rs:4-7, SubsModel.v). *)
Theorem C67_text plugins P author_set revision_line wants (ls : list line) :
  custom_subs P [] SubsModel.normal = SubsModel.normal -> forallb line_ok ls = true ->
  convert plugins P author_set revision_line wants (source ls) = Some (html ls).
Proof.
  intros NS OK. assert (IO : forallb (forallb item_ok) ls = true). { rewrite forallb_forall in *. intros l I. specialize (OK l I). unfold line_ok in OK. now apply andb_true_iff in OK as [OK _]. }
  unfold convert, parse. rewrite (lex_source plugins ls IO). destruct (whole_text P NS author_set revision_line ls OK) as (bs & c & s & -> & C & F).
  destruct (document_written wants (InlineModel.dbg (p_env P)) P bs (paragraphs ls) eq_refl F) as (l & L & H).
  replace (content_of c) with (Some l); [exact H|]. symmetry. destruct C as [-> | ->]; exact L.
Qed.
(** The HTML depends only on the paragraphs: how many blank lines there are between them, before and after them, and whether the source ends with a line feed make no difference. *)
Theorem C67_blank_lines plugins P author_set revision_line wants ls ls' :
  custom_subs P [] SubsModel.normal = SubsModel.normal -> forallb line_ok ls = true -> forallb line_ok ls' = true -> paragraphs ls = paragraphs ls' ->
  convert plugins P author_set revision_line wants (source ls) = convert plugins P author_set revision_line wants (source ls').
Proof. intros NS A B E. rewrite !C67_text by assumption. unfold html. now rewrite E. Qed.

(** two paragraphs with all kinds of phrases *)
Definition C67_sample : list line :=
  [ []; [(Plain $"See", []); (Marked Strong [$"the"; $"manual"], $","); (Special "&"%char, []); (Plain $"ask", $".")]; [(Marked Code [$"x1"], []); (Special "<"%char, []); (Plain $"42", $"!")]; []; [];
    [(Marked Emphasis [$"Done"], [])]; [(Plain $"Really", $"?")]; [] ].
Example C67_case : forallb line_ok C67_sample = true /\
  source C67_sample = InlineSpec.joined [ []; $"See *the manual*, & ask."; $"`x1` < 42!"; []; []; $"_Done_"; $"Really?"; [] ] /\
  html C67_sample = $"<div class=""paragraph""><p>See <strong>the manual</strong>, &amp; ask. <code>x1</code> &lt; 42!</p></div><div class=""paragraph""><p><em>Done</em> Really?</p></div>" /\
  custom_subs (plain_params true false) [] SubsModel.normal = SubsModel.normal.
Proof. vm_compute. repeat split. Qed.
Example C67_blank_case : paragraphs C67_sample = paragraphs (removelast (tl C67_sample)) /\ length (source C67_sample) = 2 + length (source (removelast (tl C67_sample))).
Proof. vm_compute. split; reflexivity. Qed.
(** What a line starts with matters: a line that starts with an angle bracket and a space is a quote, not text. *)
Example C67_first_phrase : convert [] (plain_params true false) (fun _ => true) (fun _ => true) (fun _ => true) $"> a" <> Some ($"<div class=""paragraph""><p>&gt; a</p></div>").
Proof. vm_compute. discriminate. Qed.
Print Assumptions C67_text.
Print Assumptions C67_blank_lines.
