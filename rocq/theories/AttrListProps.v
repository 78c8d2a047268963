(** C39: attribute lists and anchors. *)
From Verif Require Import AttrListModel AttrListSpec AttrListProofs.

(** The items of a list, with the commas between them, make up all of it up to its end: nothing is lost and nothing is added. *)
Theorem C39_partition full line items rest : split_items full line = Ret (items, rest) ->
  exists its last cs, items = its ++ [last] /\ length cs = length its /\ Forall (fun c => tk c = Comma) cs /\ line = flat_map (fun p => fst p ++ [snd p]) (combine its cs) ++ last ++ rest.
Proof.
  unfold split_items. destruct (take_items (find_delimiters line) line) as [[its r]|] eqn:E; [|discriminate]. destruct (take_last full r) as [[i r']|] eqn:T; [|discriminate]. intro X. injection X as <- <-.
  destruct (take_partition _ _ _ _ E) as (cs & L & F & P). exists its, i, cs. split; [reflexivity|]. split; [exact L|]. split; [exact F|]. rewrite P at 1. f_equal. apply (take_last_partition full). exact T.
Qed.
Print Assumptions C39_partition.

(** Commas inside quotes do not split, commas outside do. [full]: the list is the rest of the line; otherwise it ends at the closing bracket, whatever follows. *)
Theorem C39_split full items c rest : items <> [] -> Forall (Forall chunk_ok) items -> tk c = CloseBracket -> (full = true -> rest = []) ->
  (full = false -> at_k Backslash (last_token (commas (map src items))) = false) -> split_items full (commas (map src items) ++ c :: rest) = Ret (map src items, c :: rest).
Proof. apply split_ok. Qed.
Print Assumptions C39_split.

(** A list says what was written in it: positional and named attributes, quoted or not, roles, options and id, by name or in short, with any white space around. *)
Theorem C39_meaning full shorthand ps c rest : Forall (padded_ok shorthand) ps -> length (flat_map (fun p => says_id (what p)) ps) <= 1 -> commas (map padded_src ps) <> [] -> tk c = CloseBracket ->
  (full = true -> rest = []) -> (full = false -> at_k Backslash (last_token (commas (map padded_src ps))) = false) ->
  parse_attr_list full false shorthand (commas (map padded_src ps) ++ c :: rest) = Ret (meaning ps, rest).
Proof. apply list_meaning. Qed.
Print Assumptions C39_meaning.

(** Attribute lists of blocks and of macros never panic, whatever they hold. *)
Theorem C39_block_no_panic o line : is_block_attr_list (o :: line) = true -> exists a rest, block_attr_list line = Ret (a, rest).
Proof. intro B. apply list_total. exact (block_ends o line B). Qed.
Print Assumptions C39_block_no_panic.
Theorem C39_macro_no_panic line : (exists l c, line = l ++ [c] /\ tk c = CloseBracket) -> exists a rest, block_macro_attr_list line = Ret (a, rest).
Proof. intro E. apply list_total. exact E. Qed.
Print Assumptions C39_macro_no_panic.
Theorem C39_inline_no_panic xref target o line : free [OpenBracket] target -> tk o = OpenBracket -> continues_inline_macro xref (target ++ o :: line) = true -> exists a rest, inline_macro_attr_list line = Ret (a, rest).
Proof. intros F O C. apply list_total. exact (inline_ends xref target o line F O C). Qed.
Print Assumptions C39_inline_no_panic.

(** The text of a link is all that stands in its brackets, which may hold pairs of brackets. *)
Theorem C39_link_text checked x c rest : x <> [] -> bracketed x -> at_k SingleQuote (hd_error x) = false -> tk c = CloseBracket ->
  link_attr_list checked (x ++ c :: rest) = Ret (push_positional (Some x) no_attrs, rest).
Proof. apply link_text. Qed.
Print Assumptions C39_link_text.

(** A text in quotes is the text of the link without the quotes, also when it holds commas and equal signs. *)
Theorem C39_quoted_link_text checked q1 x q2 c rest : free [DoubleQuote; Backslash; OpenBracket; CloseBracket; AttrRef] x -> tk q1 = DoubleQuote -> tk q2 = DoubleQuote -> tk c = CloseBracket ->
  link_attr_list checked (q1 :: x ++ q2 :: c :: rest) = Ret (push_positional (Some x) no_attrs, rest).
Proof. apply quoted_link_text. Qed.
Print Assumptions C39_quoted_link_text.
Example C39_quoted_link_example : exists x q1 q2 c rest, lex """a=b, c=d""] e" = q1 :: x ++ q2 :: c :: rest /\ free [DoubleQuote; Backslash; OpenBracket; CloseBracket; AttrRef] x /\ text_of x = $"a=b, c=d" /\ tk q1 = DoubleQuote /\ tk q2 = DoubleQuote /\ tk c = CloseBracket.
Proof.
  let l := eval vm_compute in (lex """a=b, c=d""] e") in
    match l with ?q1 :: ?m => let x := eval vm_compute in (firstn 8 m) in exists x, q1; let y := eval vm_compute in (skipn 8 m) in match y with ?q2 :: ?c :: ?r => exists q2, c, r end end.
  split; [vm_compute; reflexivity|]. split; [repeat constructor; cbn; intuition discriminate|]. repeat split.
Qed.

(** Anchors: [[id]] and [[id, text]]. [entire]: on a line of its own. *)
Theorem C39_anchor entire id c1 c2 rest : id_tokens id -> tk c1 = CloseBracket -> parse_anchor entire (id ++ c1 :: c2 :: rest) = Ret (Some (text_of id, []), rest).
Proof. intros I C. rewrite anchor_id by (try exact I; rewrite C; cbn; tauto). rewrite (is_k_of _ _ C). reflexivity. Qed.
Print Assumptions C39_anchor.
Theorem C39_anchor_text (entire : bool) id t w ref c1 c2 rest : id_tokens id -> tk t = Comma -> Forall (fun x => tk x = Whitespace) w -> length w <= 1 -> at_k Whitespace (hd_error ref) = false ->
  tk c1 = CloseBracket -> tk c2 = CloseBracket -> (if entire then rest = [] else free [CloseBracket] ref) -> parse_anchor entire (id ++ t :: w ++ ref ++ c1 :: c2 :: rest) = Ret (Some (text_of id, ref), rest).
Proof. apply anchor_ref. Qed.
Print Assumptions C39_anchor_text.

(** ** Findings *)
Definition block (s : string) : outcome (attrs * list tok) := block_attr_list (tl (lex s)).
Definition formatted (s : string) : outcome (attrs * list tok) := formatted_attr_list (tl (lex s)).
Definition str (l : list tok) : string := string_of_list_ascii (text_of l).
(** Two values with an apostrophe in each: the comma between them, outside of the quotes, does not split. *)
Theorem C39_apostrophes_refuted : exists v, is_block_attr_list (lex "[caption=""Don't"",title=""Can't""]") = true /\
  block "[caption=""Don't"",title=""Can't""]" = Ret (Attrs [None] [($"caption", v)] [] [] None [], []) /\ str v = "Don't"",title=""Can't"%string.
Proof. eexists. vm_compute. repeat split. Qed.
Print Assumptions C39_apostrophes_refuted.
(** A closing bracket in quotes: no comma after it splits. *)
Theorem C39_bracket_refuted : exists v, is_block_attr_list (lex "[quote,""a]b"",c]") = true /\
  block "[quote,""a]b"",c]" = Ret (Attrs [Some [wd $"quote"]; Some v] [] [] [] None [], []) /\ str v = """a]b"",c"%string.
Proof. eexists. vm_compute. repeat split. Qed.
Print Assumptions C39_bracket_refuted.
(** An escaped closing bracket, too: here one attribute with the name x\]y,z. *)
Theorem C39_escaped_refuted : continues_inline_macro false (lex "a.png[x\]y,z=1] tail") = true /\
  inline_macro_attr_list (skipn 4 (lex "a.png[x\]y,z=1] tail")) = Ret (Attrs [None] [($"x\]y,z", lex "1")] [] [] None [], lex " tail").
Proof. vm_compute. split; reflexivity. Qed.
Print Assumptions C39_escaped_refuted.
(** Equal signs are lost: of a==b=c the value is b=c. *)
Theorem C39_equals_refuted : exists v, block "[a==b=c]" = Ret (Attrs [None] [($"a", v)] [] [] None [], []) /\ str v = "b=c"%string.
Proof. eexists. vm_compute. repeat split. Qed.
Print Assumptions C39_equals_refuted.
(** A role, options or an id given by name takes no place among the positional attributes, other named attributes do. *)
Theorem C39_place_refuted : block "[quote,role=x,Jane]" = Ret (Attrs [Some [wd $"quote"]; Some [wd $"Jane"]] [] [] [$"x"] None [], []) /\
  block "[quote,lang=x,Jane]" = Ret (Attrs [Some [wd $"quote"]; None; Some [wd $"Jane"]] [($"lang", [wd $"x"])] [] [] None [], []).
Proof. vm_compute. repeat split. Qed.
Print Assumptions C39_place_refuted.
(** Attribute lists of formatted text panic on an empty role, empty options, an empty id, and on an empty quoted item after a role. *)
Theorem C39_formatted_refuted : Forall (fun s => continues_formatted_text_attr_list (tl (lex s)) = true /\ formatted s = Panic) ["[role=]#x#"; "[opts=]#x#"; "[id=]#x#"; "[a,'',b]#x#"]%string.
Proof. repeat (constructor; [vm_compute; split; reflexivity|]). constructor. Qed.
Print Assumptions C39_formatted_refuted.
(** The text of a link with an opening bracket that is not closed takes all of the line; the last token of the line is lost, or the parser panics in a build with assertions. *)
Theorem C39_link_refuted : exists v, continues_inline_macro false (lex "x[a[b] and more") = true /\
  link_attr_list false (lex "a[b] and more") = Ret (push_positional (Some v) no_attrs, []) /\ str v = "a[b] and "%string /\ link_attr_list true (lex "a[b] and more") = Panic.
Proof. eexists. vm_compute. repeat split. Qed.
Print Assumptions C39_link_refuted.
(** An escaped bracket in the text of an inline anchor, or a bracket in that of a bibliography anchor: panic. In the id: the token after it is lost. *)
Theorem C39_anchor_refuted : continues_inline_anchor (tl (lex "[[id,a\]b]]")) = true /\ parse_anchor false (skipn 2 (lex "[[id,a\]b]]")) = Panic /\
  parse_anchor false (skipn 3 (lex "[[[id,a]b]]]")) = Panic /\ contains_seq [Kind CloseBracket; Kind CloseBracket; Kind CloseBracket] (tl (lex "[[[id,a]b]]]")) = true /\
  continues_inline_anchor (tl (lex "[[a\]b]]")) = true /\ parse_anchor false (skipn 2 (lex "[[a\]b]]")) = Ret (Some ($"a\", []), lex "]]").
Proof. vm_compute. repeat split. Qed.
Print Assumptions C39_anchor_refuted.

(** ** Non-vacuity *)
Definition everything : list padded :=
  [Padded [] (EShort (lex "quote") [MId (lex "x1"); MRole (lex "lead"); MOption (lex "step")]) []; Padded [sp] (EQuoted (InSingle (lex "Jane ""J."" Doe, PhD"))) [sp]; Padded [sp] EEmpty [];
   Padded [] (ENamed $"lang" (lex "en")) []; Padded [] (ENamedQ $"title" (InDouble (lex "One, 'two', three"))) []; Padded [] (ERoles [$"a"; $"b"]) []; Padded [] (EOptions [$"c"; $"d"]) []; Padded [] (EPos (lex "last one")) []].
Example everything_src : commas (map padded_src everything) ++ lex "]" = tl (lex "[quote#x1.lead%step, 'Jane ""J."" Doe, PhD' , ,lang=en,title=""One, 'two', three"",role=""a b"",options=""c,d"",last one]").
Proof. vm_compute. reflexivity. Qed.
Ltac nin := cbn; intuition discriminate.
Ltac fr := vm_compute; repeat (constructor; [intuition discriminate|]); constructor.
Example everything_ok : Forall (padded_ok true) everything.
Proof.
  repeat (constructor; [split; [|split; repeat constructor]|]); [| | | | | | | |constructor]; cbn [what entry_ok].
  - split; [reflexivity|]. split; [fr|]. split; [fr|]. split; [discriminate|]. repeat (constructor; [split; [vm_compute; discriminate|split; fr]|]). constructor.
  - split; [split; [fr|exists 1; reflexivity]|split; [fr|exact I]].
  - exact I.
  - split; [unfold name_ok; nin|]. split; [fr|]. split; reflexivity.
  - split; [unfold name_ok; nin|]. split; [split; [fr|exists 1; reflexivity]|split; [fr|exact I]].
  - exact I.
  - exact I.
  - split; [vm_compute; discriminate|]. split; [fr|]. split; [fr|]. split; reflexivity.
Qed.
Example everything_says : exists v w z, block "[quote#x1.lead%step, 'Jane ""J."" Doe, PhD' , ,lang=en,title=""One, 'two', three"",role=""a b"",options=""c,d"",last one]" =
  Ret (Attrs [Some [wd $"quote"]; Some v; None; None; None; Some w] [($"lang", [wd $"en"]); ($"title", z)] [$"step"; $"c"; $"d"] [$"lead"; $"a"; $"b"] (Some $"x1") [], []) /\
  str v = "Jane ""J."" Doe, PhD"%string /\ str w = "last one"%string /\ str z = "One, 'two', three"%string.
Proof. eexists _, _, _. vm_compute. repeat split. Qed.
Example link_nonvacuous : bracketed (lex "see a[b]c") /\ link_attr_list true (lex "see a[b]c] more") = Ret (push_positional (Some (lex "see a[b]c")) no_attrs, lex " more").
Proof.
  split; [|vm_compute; reflexivity]. change (lex "see a[b]c") with ([wd $"see"; sp; wd $"a"] ++ Tok OpenBracket $"[" :: [wd $"b"] ++ Tok CloseBracket $"]" :: [wd $"c"]). cbn [app].
  repeat (apply B_tok; [nin|]). apply (B_pair _ _ [wd $"b"]); [reflexivity|reflexivity|fr|]. apply B_tok; [nin|]. constructor.
Qed.
Example anchor_nonvacuous : id_tokens (lex "my-id") /\ continues_inline_anchor (tl (lex "[[my-id, The text]] more")) = true /\
  parse_anchor false (skipn 2 (lex "[[my-id, The text]] more")) = Ret (Some ($"my-id", lex "The text"), lex " more").
Proof. split; [split; [fr|split; [vm_compute; discriminate|vm_compute; intuition discriminate]]|]. vm_compute. split; reflexivity. Qed.
Example inline_nonvacuous : continues_inline_macro false (lex "a.png[x,z=1] tail") = true /\ inline_macro_attr_list (skipn 4 (lex "a.png[x,z=1] tail")) = Ret (Attrs [Some [wd $"x"]; None] [($"z", lex "1")] [] [] None [], lex " tail").
Proof. vm_compute. split; reflexivity. Qed.
