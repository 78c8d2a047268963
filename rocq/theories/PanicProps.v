(** C78: no source makes the program panic. *)
From Verif Require Import Base InlineModel BlockModel BlockSpec HeaderModel ManualSpec ManualModel.
From Verif Require ManualProps SemanticModel SemanticProps.
Import ListNotations.
Open Scope string_scope.

(** Articles as in C74 make no part of the program panic, from the lexer to either backend. ([None] in [convert] is for panics, and for what these models leave out.) *)
Theorem C78_articles_partial plugins P author_set revision_line U wants (m : manual) :
  (forall x, custom_subs P [] x = x) -> (forall n, n <= 5 -> adjust P n = n) -> book P = false \/ intro m = [] -> manual_ok m = true ->
  ManualModel.convert plugins P author_set revision_line U wants (source m) <> None /\ SemanticModel.convert plugins P author_set revision_line U wants (source m) <> None.
Proof.
  intros NS NO BK OK. split.
  - rewrite (ManualProps.C74_manual plugins P author_set revision_line U wants m NS NO BK OK). discriminate.
  - rewrite (SemanticProps.C77_semantic plugins P author_set revision_line U wants m NS NO BK OK). discriminate.
Qed.
Print Assumptions C78_articles_partial.

(** These sources make the parser panic, in builds with and without debug assertions: *)
Definition panics (debug : bool) (l : list string) : Prop := parsed debug false l = Panics.
(** a fence of backticks with a blank behind it (parse_block.rs:304-310, line.rs:610) *)
Theorem C78_fence_refuted debug : panics debug ["``` "; "x"; "```"].
Proof. destruct debug; vm_compute; reflexivity. Qed.
Print Assumptions C78_fence_refuted.
(** a discrete heading with a hash instead of an equal sign (parse_block.rs:201-202, line.rs:321-330) *)
Theorem C78_discrete_refuted debug : panics debug ["[discrete]"; "## A"].
Proof. destruct debug; vm_compute; reflexivity. Qed.
Print Assumptions C78_discrete_refuted.
(** a quotation with nothing in it, and one of nobody (parse_block.rs:464-510) *)
Theorem C78_quotation_refuted debug : panics debug [""""""; "-- me"] /\ panics debug ["""a"""; "-- ,book"].
Proof. split; destruct debug; vm_compute; reflexivity. Qed.
Print Assumptions C78_quotation_refuted.
(** an anchor that is not valid, between a title and attributes above a heading (parse_block.rs:46-51) *)
Theorem C78_anchor_refuted debug : panics debug [".title"; "[[1st]]"; "[foo]"; "=== Heading"].
Proof. destruct debug; vm_compute; reflexivity. Qed.
Print Assumptions C78_anchor_refuted.
(** a passthrough with nothing in it (C51) *)
Theorem C78_passthrough_refuted debug : panics debug ["pass:[]"].
Proof. destruct debug; vm_compute; reflexivity. Qed.
Print Assumptions C78_passthrough_refuted.
(** a fence in a Markdown quote (parser.rs:233-250), only with debug assertions: without them its first line is lost, so that its last line begins a block *)
Definition fence_in_quote : list string := ["> a"; "----"; ">"; "x"; "----"].
Theorem C78_markdown_refuted : panics true fence_in_quote.
Proof. vm_compute. reflexivity. Qed.
Print Assumptions C78_markdown_refuted.
(** and the same sources without what is wrong with them do not panic *)
Example C78_case : forall debug l, In l [["```"; "x"; "```"]; ["[discrete]"; "== A"]; ["""a"""; "-- me"]; [".title"; "[[first]]"; "[foo]"; "=== Heading"]; ["pass:[x]"]; ["> a"; ">"; "> b"]] -> exists c s, parsed debug false l = Yes c s.
Proof. intros debug l H. cbn [In] in H. destruct debug; repeat destruct H as [<- | H]; try destruct H; eexists; eexists; vm_compute; reflexivity. Qed.
