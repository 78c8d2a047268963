(** Model of the inline parser: parser/src/tasks/parse_inlines/mod.rs, inline_utils.rs, inline_preproc.rs and index_term.rs, with the parts of line.rs and contiguous_lines.rs they use.
    Left out: locations of nodes (where a text is read back from a location, the model keeps that text; all tokens are of one source, so no text is cut where an include begins or ends); anchors and
    cross references noted in the document; numbers of callouts; what decides that a line ends the text ([stops], mod.rs:999-1021, depends on the block being parsed). Errors are recorded and parsing
    goes on, as when the parser is not strict. *)
From Verif Require Export AttrListModel SubsModel.

(** ** Lines — line.rs:4-11 without term_delim *)
Record iline := ILine { toks : list tok; orig : nat; passm : bool; pluses : nat }.
(** line.rs:14-22, 34-42 *)
Definition new_line (l : list tok) : iline := ILine l (length l) false 0.
(** what taking tokens from the front leaves *)
Definition adv (l : iline) (r : list tok) : iline := ILine r (orig l) (passm l) (pluses l).
(** line.rs:908-910 *)
Definition unconsumed (l : iline) : bool := length (toks l) =? orig l.
(** line.rs:60-72. Tokens already in a line are no longer MaybeEmail. [pass_pluses] is a u8 and stops at 255. *)
Definition push_tok (l : iline) (t : tok) : iline :=
  ILine (toks l ++ [t]) (S (orig l)) (passm l || is_k MacroName t && bytes_eqb (tx t) $"pass:")
        (if is_k Plus t && negb (at_k Backtick (last_token (toks l))) && (length (tx t) <? 4) && (pluses l <? 255) then S (pluses l) else pluses l).
(** token.rs:200-202 *)
Definition whitespaceish (o : option tok) : bool := at_k Whitespace o || at_k Newline o.
(** line.rs:44-58. [Panic]: [last().unwrap()] of an empty line *)
Definition may_contain_pass (l : iline) : outcome bool :=
  if negb (passm l) && (pluses l =? 0) then Ret false
  else if passm l || (1 <? pluses l) then Ret true
  else match rev (toks l) with
       | [] => Panic
       | t :: r => if is_k Plus t && len_is 1 t then match r with p :: _ => Ret (negb (whitespaceish (Some p))) | [] => Ret true end else Ret true
       end.
(** contiguous_lines.rs:106-110 *)
Definition restore (l : iline) (ls : list iline) : list iline := match toks l with [] => ls | _ => l :: ls end.
(** contiguous_lines.rs:70-72, 74-81 *)
Definition current_tok (ls : list iline) : option tok := match ls with l :: _ => hd_error (toks l) | [] => None end.
Definition consume_tok (ls : list iline) : option (tok * list iline) :=
  match ls with
  | l :: r => match toks l with t :: m => Some (t, restore (adv l m) r) | [] => None end
  | [] => None
  end.
Definition total (ls : list iline) : nat := list_sum (map (fun l => length (toks l)) ls).

(** line.rs:380-391 with no specification: false *)
Definition at_stop (stop : list tspec) (r : list tok) : bool := match stop with [] => false | _ => starts_with_seq stop r end.
(** inline_utils.rs:225-227, contiguous_lines.rs:116-118 *)
Definition any_seq (q : list tspec) (r : list tok) (ls : list iline) : bool := contains_seq q r || existsb (fun l => contains_seq q (toks l)) ls.
(** line.rs:496-515 *)
Fixpoint no_ws_until (k : kind) (skip : bool) (l : list tok) : bool :=
  match l with
  | [] => false
  | t :: r =>
      if skip then no_ws_until k false r
      else if is_k k t then true
      else if is_k AttrRef t && bytes_eqb (tx t) $"{sp}" then no_ws_until k true r
      else if is_k Whitespace t then false
      else no_ws_until k false r
  end.
(** parse_context.rs:45-60 *)
Inductive ictx := CNone | CLink | CSpecs (q : list tspec).
Definition spec_is (s : tspec) (t : tok) : bool := match s with Kind k => is_k k t | _ => false end.
Definition only_spec (q : list tspec) (t : tok) : bool := match q with [s] => spec_is s t | _ => false end.
(** line.rs:521-572: [l] is the line from place [i] on, [p] the token before it *)
Fixpoint term_in (q : list tspec) (c : ictx) (whole : list tok) (i : nat) (p : option tok) (l : list tok) : option nat :=
  match l with
  | [] => None
  | t :: r =>
      if starts_with_seq q l then
        match p with
        | None => None
        | Some p =>
            if only_spec q p && negb (repl (inf p)) then term_in q c whole (S i) (Some t) r
            else if at_k Word (hd_error r) || whitespaceish (Some p) then None
            else if match hd_error r with Some n => one_of [Underscore; Star; Backtick; Hash] n && only_spec q n && negb (repl (inf n)) | None => false end
                 then term_in q c whole (S i) (Some t) r
            else if at_k SingleQuote (hd_error r) && match q with [Kind Backtick] => true | _ => false end then None
            else match c with
                 | CSpecs sp => match index_of_seq sp whole with
                                | Some m => if (m <? i) && match nth_error whole m with Some x => negb (repl (inf x)) | None => true end then None else Some i
                                | None => Some i
                                end
                 | _ => Some i
                 end
        end
      else term_in q c whole (S i) (Some t) r
  end.
Definition terminates_in (q : list tspec) (c : ictx) (l : list tok) : option nat := term_in q c l 0 None l.
Definition is_some {A} (o : option A) : bool := match o with Some _ => true | None => false end.

(** inline_utils.rs:27-65: the bytes after which constrained formatting may start *)
Definition opener_bytes : bytes := [" "%char; TAB; LF; FF; CR; "]"%char; "`"%char; "*"%char; "_"%char; "["%char; "#"%char; "+"%char; "|"%char; "'"%char; "="%char; ch 34; ","%char; "("%char; "-"%char].
Definition starts_constrained (q : list tspec) (t : tok) (c : ictx) (aps : option subs) (r : list tok) (ls : list iline) : bool :=
  if repl (inf t) && negb (is_some aps) then false
  else match before (inf t) with None => true | Some b => mem b opener_bytes end
       && negb (current_is Whitespace r)
       && match rev q with s :: _ => match s with Kind k | Len _ k => is_k k t | _ => false end | [] => false end
       && (is_some (terminates_in q c r) || existsb (fun l => is_some (terminates_in q c (toks l))) ls).
(** inline_utils.rs:67-83, for two stop tokens of the same kind *)
Definition starts_unconstrained (k : kind) (t : tok) (r : list tok) (ls : list iline) : bool :=
  negb (repl (inf t)) && is_k k t && current_is k r && any_seq [Kind k; Kind k] r ls.
(** line.rs:457-466 *)
Definition callouts_only (r : list tok) : bool := forallb (one_of [Whitespace; CalloutNumber]) r.
(** line.rs:486-493 *)
Definition continues_xref (r : list tok) : bool :=
  current_is LessThan r && (3 <? length r) && contains_seq [Kind GreaterThan; Kind GreaterThan] r
  && match nth_error r 1 with Some t => negb (one_of [GreaterThan; LessThan; Whitespace] t) | None => false end.
(** line.rs:574-587, contiguous_lines.rs:131-136, index_term.rs:243-251: the length of the parentheses that end an index term *)
Definition close_len (r : list tok) : option nat :=
  match index_of_kind CloseParens r with
  | Some n => match nth_error r n with Some t => if length (tx t) <? 2 then None else Some (length (tx t)) | None => None end
  | None => None
  end.
Fixpoint close_len_in (ls : list iline) : option nat := match ls with l :: m => match close_len (toks l) with Some n => Some n | None => close_len_in m end | [] => None end.
Definition ends_term (r : list tok) (ls : list iline) : option nat :=
  if current_is CloseParens r then None else match close_len r with Some n => Some n | None => close_len_in ls end.

(** ** Taking text from a line *)
(** line.rs:590-604. [Panic]: no tokens. *)
Fixpoint string_until (k : kind) (l : list tok) : bytes * list tok :=
  match l with
  | [] => ([], [])
  | t :: r => if is_k k t then ([], l) else let (x, m) := string_until k r in ((if one_of [AttrRef; Backslash] t then x else tx t ++ x), m)
  end.
Definition consume_until (k : kind) (l : list tok) : outcome (bytes * list tok) := match l with [] => Panic | _ => Ret (string_until k l) end.
(** line.rs:321-330 *)
Definition discard_assert (k : kind) (l : list tok) : outcome (list tok) := match l with t :: r => if is_k k t then Ret r else Panic | [] => Panic end.
(** line.rs:653-658 *)
Definition macro_target (l : list tok) : outcome (bytes * list tok) :=
  match consume_until OpenBracket l with
  | Panic => Panic
  | Ret (x, m) => match discard_assert OpenBracket m with Ret m => Ret (x, m) | Panic => Panic end
  end.
(** line.rs:660-671 *)
Definition optional_target (l : list tok) : outcome (option bytes * list tok) :=
  if current_is OpenBracket l then Ret (None, tl l) else match macro_target l with Ret (x, m) => Ret (Some x, m) | Panic => Panic end.
(** line.rs:673-710: the number of tokens of a URL that goes on to the first token of kind [k] *)
Definition url_to (k : kind) (r : list tok) : nat := match index_of_kind k r with Some n => n | None => 0 end.
(** line.rs:686-697: of a bare URL *)
Definition url_stop : list kind := [Whitespace; GreaterThan; OpenBracket; OpenParens; CloseParens; Bang; SemiColon; Colon; Star; QuestionMark].
Fixpoint url_run (l : list tok) : nat := match l with t :: r => if one_of url_stop t then 0 else S (url_run r) | [] => 0 end.
Definition bare_url (r : list tok) : nat :=
  match url_run r with O => 0 | S n => if at_k Dots (nth_error r n) then n else S n end.
(** token.rs:111-124 *)
Definition url_schemes : list bytes := [$"https://"; $"http://"; $"ftp://"; $"irc://"; $"mailto:"; $"file:///"].
Definition url_scheme (t : tok) : option bytes := if is_k UriScheme t && existsb (bytes_eqb (tx t)) url_schemes then Some (tx t) else None.

(** ** Nodes — ast/src/node/inline.rs. Attributes are kept with their source text (their location in the code) and the parsed values. *)
Inductive span_kind := Bold | Italic | Mono | LitMono | Highlight | TextSpan | Superscript | Subscript.
Inductive symbol_kind := Copyright | Trademark | Registered | EmDash | TripleDash | Ellipsis | RightArrow | DoubleRightArrow | LeftArrow | DoubleLeftArrow.
Inductive special_kind := SAmpersand | SLessThan | SGreaterThan.
Inductive curly_kind := LeftDouble | RightDouble | LeftSingle | RightSingle | Apostrophe.
Inductive adjacent := NoNewline | Leading | Trailing.
Inductive inode :=
| NText (x : bytes) | NNewline | NDiscarded | NLineBreak | NSpaces (x : bytes)
| NSpecial (k : special_kind) | NSymbol (k : symbol_kind) | NDashes (n : nat) (a : adjacent) | NCurly (k : curly_kind)
| NSpan (k : span_kind) (a : option alist) (inner : list inode) | NQuote (double : bool) (inner : list inode)
| NComment (x : bytes) | NPass (inner : list inode) | NTuck (x : bytes) | NCallout (src : bytes)
| NAnchor (id : bytes) (reftext : list inode) | NBiblio (id : bytes) (reftext : list inode) | NAnchorMacro (id : bytes) (a : alist)
| NFootnote (id : option bytes) (text : option (list inode)) | NXref (target : bytes) (text : option (list inode)) (shorthand : bool)
| NLink (scheme : option bytes) (target : bytes) (a : option alist) (caret : bool) | NLinkPass (target : list inode) (a : alist) (caret : bool)
| NMacro (name target : bytes) (a : alist) | NKeyboard (keys : bytes) | NButton (x : bytes) | NMenu (first rest : bytes)
| NIndexMacro (visible : bool) (a : alist) | NVisible (term : list inode) | NConcealed (terms : list (list inode))
with alist :=
| AList (a : attrs) (src : bytes) (values : list (list inode))
| AText (text : list inode).

(** ** State and environment *)
Inductive ierror := EmptyFootnote | InvalidIndexTerm | TooManyTerms.
(** parse_context.rs: subs, inline_ctx, attr_pass_subs, passthrus (each with a mark: taken), and the errors recorded *)
Record st := St { subs_of : subs; ctx_of : ictx; aps_of : option subs; pass_of : list (list inode * bool); errs_of : list ierror }.
Definition set_subs (x : subs) (s : st) : st := St x (ctx_of s) (aps_of s) (pass_of s) (errs_of s).
Definition set_ctx (x : ictx) (s : st) : st := St (subs_of s) x (aps_of s) (pass_of s) (errs_of s).
Definition set_aps (x : option subs) (s : st) : st := St (subs_of s) (ctx_of s) x (pass_of s) (errs_of s).
Definition set_pass (x : list (list inode * bool)) (s : st) : st := St (subs_of s) (ctx_of s) (aps_of s) x (errs_of s).
Definition report (x : ierror) (s : st) : st := St (subs_of s) (ctx_of s) (aps_of s) (pass_of s) (errs_of s ++ [x]).
(** What does not change while a text is parsed: debug assertions are on; mod.rs:999-1021; inline_preproc.rs:191, 217; parse_context.rs table_cell_ctx, bibliography_ctx, custom_line_comment; and what Unicode
    says of characters: the text ends with a word character (inline_utils.rs:249-251), starts with one, ends with white space or ASCII punctuation (mod.rs:784-786) *)
Record env := Env { dbg : bool; stops : iline -> bool; at_delimiter : iline -> bool; in_cell : bool; biblio_list : bool; comment_bytes : option bytes;
                    ends_word : bytes -> bool; starts_word : bytes -> bool; ends_break : bytes -> bool }.

(** ** The accumulator — inline_utils.rs:86-188, tasks/collect_text.rs (see CollectTextModel.v) *)
Record accum := Acc { nodes_of : list inode; text : bytes }.
Definition acc0 : accum := Acc [] [].
(** collect_text.rs:63-78: text goes into the last node if that is text *)
Definition add_text (ns : list inode) (x : bytes) : list inode :=
  match x with
  | [] => ns
  | _ => match rev ns with NText y :: r => rev r ++ [NText (y ++ x)] | _ => ns ++ [NText x] end
  end.
Definition commit (a : accum) : accum := Acc (add_text (nodes_of a) (text a)) [].
Definition push_node (n : inode) (a : accum) : accum := Acc (nodes_of (commit a) ++ [n]) [].
Definition push_text (x : bytes) (a : accum) : accum := Acc (nodes_of a) (text a ++ x).
Definition last_node (a : accum) : option inode := hd_error (rev (nodes_of a)).
(** ast/src/inline_nodes.rs:78-120 *)
Definition remove_trailing_newline (ns : list inode) : list inode := match rev ns with NNewline :: r => rev r | _ => ns end.
Definition discard_trailing_newline (ns : list inode) : list inode := match rev ns with NNewline :: r => rev r ++ [NDiscarded] | _ => ns end.
(** inline_utils.rs:165-175; [ns] is reversed *)
Fixpoint trimmed (fuel : nat) (ns : list inode) : list inode :=
  match fuel, ns with
  | S f, NComment _ :: r =>
      let r := match r with NNewline :: m => m | _ => r end in
      let r := match r with NDiscarded :: m => m | _ => r end in trimmed f r
  | _, _ => ns
  end.
(** the source of an attribute list that was not used (mod.rs:888-893): its text, with references replaced *)
Definition alist_src (a : alist) : bytes := match a with AList _ x _ => x | AText _ => [] end.
Definition push_unused (ia : option alist) (a : accum) : accum := match ia with Some l => push_text (alist_src l) a | None => a end.
(** mod.rs:895-903 *)
Definition finish (a : accum) (ia : option alist) : list inode :=
  let ns := nodes_of (commit (push_unused ia a)) in rev (trimmed (length ns) (rev ns)).
(** inline_utils.rs:148-163 *)
Definition joining_newline (a : accum) (ls : list iline) : accum :=
  match ls with
  | [] => a
  | _ => let a := commit a in
         match rev (nodes_of a) with
         | NDashes _ NoNewline :: r => Acc (rev r ++ [NDashes 2 Trailing]) []
         | _ => push_node NNewline a
         end
  end.
(** mod.rs:1136-1163 *)
Definition newline_if_needed (a : accum) (ls : list iline) : accum :=
  match ls with l :: _ => if unconsumed l then push_node NNewline a else a | [] => a end.
(** token.rs:147-169 for one byte *)
Definition drop_byte (t : tok) : tok := let x := tl (tx t) in TokI (match x with [] => Discard | _ => Word end) x (inf t).
(** inline_utils.rs:109-142: what two or three dashes become, and the rest of the line. [Panic]: a byte is dropped from an empty token. *)
Definition ends_space (x : bytes) : bool := match rev x with c :: _ => Ascii.eqb c " "%char | [] => false end.
Definition emdash (E : env) (a : accum) (t : tok) (r : list tok) : outcome (accum * list tok) :=
  let next := match r with n :: _ => match tx n with [] => None | _ => Some (tx n) end | [] => None end in
  let last_none := match text a with [] => true | _ => false end in
  let last_ok := last_none || ends_space (text a) in
  let next_ok := match next with None => true | Some x => starts_with $" " x end in
  if negb last_none && match next with Some x => ends_word E (text a) && starts_word E x | None => false end
  then Ret (push_node (NSymbol (if length (tx t) =? 2 then EmDash else TripleDash)) a, r)
  else if last_none && negb (is_some next) then Ret (push_text (tx t) a, r)
  else if last_ok && next_ok then
    let '(a, nl) := if last_none then match rev (nodes_of a) with NNewline :: m => (Acc (rev m) [], Leading) | _ => (a, NoNewline) end
                    else (Acc (nodes_of a) (removelast (text a)), NoNewline) in
    let a := push_node (NDashes (length (tx t)) nl) a in
    match r with
    | [] => Ret (a, [])
    | n :: m => match tx n with [] => Panic | _ => Ret (a, drop_byte n :: m) end
    end
  else Ret (push_text (tx t) a, r).
(** mod.rs:1023-1044. (The code drops as many characters as the comment mark has bytes.) *)
Definition recover_comment (E : env) (a : accum) : accum :=
  match comment_bytes E with
  | None => a
  | Some c =>
      let x := text a in
      let sp := ends_space x in
      let body := if sp then removelast x else x in
      if ends_with body c then let n := length body - length c in push_node (NTuck (skipn n x)) (Acc (nodes_of a) (firstn n x)) else a
  end.
(** collect_text.rs:37-48: only when the text ends with a space. (Unicode white space before it is left: ASCII only.) *)
Definition trim_end (x : bytes) : bytes := if ends_space x then rev (skipn (LexerModel.run (fun c => mem c (VT :: [" "%char; TAB; LF; FF; CR])) (rev x)) (rev x)) else x.
(** ast/src/inline_nodes.rs:147-163 *)
Definition trim_trailing (ns : list inode) : list inode :=
  match rev ns with
  | NText x :: r => rev r ++ [NText (rev (skipn (LexerModel.run (fun c => mem c (VT :: [" "%char; TAB; LF; FF; CR])) (rev x)) (rev x)))]
  | NSpaces _ :: r => rev r
  | _ => ns
  end.
Definition add_parens (n : nat) (ns : list inode) : list inode := add_text ns (repeat ")"%char n).

(** ** What the parser does next: fail, go on with the text, or parse a text within the text and go on with its nodes, the state and the lines left *)
Inductive act :=
| Crash | Stuck
| Fin (s : st) (ns : list inode) (ls : list iline)
| Go (s : st) (a : accum) (ia : option alist) (cur : option iline) (ls : list iline)
| Call (s : st) (stop : list tspec) (ls : list iline) (k : list inode -> st -> list iline -> act).
Definition try {A} (o : outcome A) (k : A -> act) : act := match o with Ret x => k x | Panic => Crash end.

(** parse_attr_list.rs:356-374: a value is parsed, unless it is one word or nothing *)
Definition call_value (s : st) (ts : list tok) (k : list inode -> st -> act) : act :=
  match ts with
  | [] => k [] s
  | [t] => if is_k Word t then k [NText (tx t)] s else Call s [] [new_line ts] (fun ns s _ => k ns s)
  | _ => Call s [] [new_line ts] (fun ns s _ => k ns s)
  end.
Fixpoint call_values (s : st) (vs : list (list tok)) (k : list (list inode) -> st -> act) : act :=
  match vs with
  | [] => k [] s
  | v :: r => call_value s v (fun ns s => call_values s r (fun nss s => k (ns :: nss) s))
  end.
Definition values_of (a : attrs) : list (list tok) := flat_map (fun o => match o with Some v => [v] | None => [] end) (positional a) ++ map snd (named a).
(** the tokens of [r] before its rest [m] *)
Definition consumed (r m : list tok) : list tok := firstn (length r - length m) r.
(** parse_attr_list.rs:20-25; the opening bracket has been consumed. (The code parses each value as it meets it.) *)
Definition with_attrs (s : st) (r : list tok) (k : alist -> attrs -> st -> list tok -> act) : act :=
  try (inline_macro_attr_list r) (fun '(a, m) => call_values s (values_of a) (fun nss s => k (AList a ($"[" ++ text_of (consumed r m)) nss) a s m)).
(** mod.rs:1102-1122: a caret at the end of the text *)
Definition blank_window (ns : list inode) : list inode * bool :=
  match rev ns with
  | NText x :: r => match rev x with c :: y => if Ascii.eqb c "^"%char then (rev r ++ [NText (rev y)], true) else (ns, false) | [] => (ns, false) end
  | _ => (ns, false)
  end.
(** parse_attr_list.rs:110-164, mod.rs:245-250, 926-932. The caret of a text among attributes is left in the text. *)
Definition with_link_attrs (E : env) (s : st) (r : list tok) (k : alist -> bool -> st -> list tok -> act) : act :=
  let caret := existsb (is_k Caret) r in
  match r with
  | [] => Crash
  | c :: m =>
      match link_scan Eof false false 0 (removelast r) with
      | None =>
          with_attrs (set_ctx CLink s) r (fun al a s m =>
            k al (caret && match positional a with Some _ :: _ => match al with AList _ _ (ns :: _) => snd (blank_window ns) | _ => false end | _ => false end) (set_ctx CNone s) m)
      | Some n =>
          if is_k CloseBracket c then k (AList no_attrs $"[]" []) false s m
          else let ts := unquote (non_attr (firstn n r)) in
               Call (set_ctx CLink s) [] [new_line ts] (fun ns s _ =>
                 let s := set_ctx CNone s in
                 match skipn n r with
                 | [] => Crash
                 | t :: rest =>
                     if dbg E && negb (is_k CloseBracket t) then Crash
                     else let '(ns, b) := if caret then blank_window ns else (ns, false) in k (AText ns) b s rest
                 end)
      end
  end.

(** ** Inline passthroughs — inline_preproc.rs *)
(** 120-169: number of target tokens before the bracket, and of tokens in the brackets *)
Fixpoint target_tokens (l : list tok) : option nat :=
  match l with
  | [] => Some 0
  | t :: r => if is_k OpenBracket t then Some 0 else if one_of [Word; Comma] t then option_map S (target_tokens r) else None
  end.
Fixpoint close_here (last : kind) (unclosed n : nat) (l : list tok) : nat + (kind * nat) :=
  match l with
  | [] => inr (last, n)
  | t :: r =>
      if is_k CloseBracket t && negb (kind_eqb last Backslash) then
        if unclosed =? 1 then inl (n - 1) else close_here (tk t) (unclosed - 1) (S n) r
      else close_here (tk t) (if is_k OpenBracket t && negb (kind_eqb last Backslash) then S unclosed else unclosed) (S n) r
  end.
Fixpoint close_later (last : kind) (n : nat) (l : list tok) : option nat :=
  match l with
  | [] => None
  | t :: r => if is_k CloseBracket t && negb (kind_eqb last Backslash) then Some (n - 1) else close_later (tk t) (S n) r
  end.
Definition pass_macro_end (r : list tok) (ls : list iline) : option (nat * nat) :=
  match r, target_tokens r with
  | [], _ | _, None => None
  | _, Some d =>
      match close_here OpenBracket 1 1 (skipn (S d) r) with
      | inl n => Some (d, n)
      | inr (last, n) => match close_later last n (flat_map toks ls) with Some n => Some (d, n) | None => None end
      end
  end.
(** 243-252 *)
Definition could_be_plus (prev : option kind) (r : list tok) : bool :=
  if match prev with Some Backtick => true | _ => false end || starts_with_seq [Kind Plus; Kind Plus; Kind Plus] r then false
  else if negb (current_is Plus r) then match prev with None | Some Whitespace | Some Plus => true | _ => false end
  else true.
Fixpoint plus_run (l : list tok) : nat := match l with t :: r => if is_k Plus t then S (plus_run r) else 0 | [] => 0 end.
(** 171-205; [n0]: the tokens of the first line *)
Fixpoint plus_later (E : env) (q : list tspec) (n0 n : nat) (ls : list iline) : option nat :=
  match ls with
  | [] => None
  | l :: m =>
      if at_delimiter E l then None
      else match index_of_seq q (toks l) with
           | Some i => if (i =? 0) && (n =? n0) then None else Some (n + i)
           | None => plus_later E q n0 (n + length (toks l)) m
           end
  end.
(** 207-227 *)
Fixpoint one_plus_later (E : env) (n : nat) (ls : list iline) : option nat :=
  match ls with
  | [] => None
  | l :: m =>
      if at_delimiter E l then None
      else match terminates_in [Len 1 Plus] CNone (toks l) with Some i => Some (n + i) | None => one_plus_later E (n + length (toks l)) m end
  end.
Definition plus_end (E : env) (count : nat) (r : list tok) (ls : list iline) : outcome (option nat) :=
  if count =? 1 then
    Ret (if current_is Newline r then None
         else match terminates_in [Len 1 Plus] CNone r with Some n => Some n | None => one_plus_later E (length r) ls end)
  else if 3 <? count then Panic
  else let q := repeat (Kind Plus) count in
       Ret (match index_of_seq q r with Some n => Some n | None => plus_later E q (length r) (length r) ls end).
(** 91-118: the lines of the content, and what is left of the line and of the lines. The closing token is dropped only if it is on the line where the content ends. [Panic]: no next line. *)
Fixpoint take_pass (n : nat) (l : iline) (ls : list iline) (done : list iline) : outcome (list iline * iline * list iline) :=
  if n <=? length (toks l) then Ret (done ++ [new_line (firstn n (toks l))], adv l (skipn (S n) (toks l)), ls)
  else match ls with
       | [] => Panic
       | l' :: ls => take_pass (n - length (toks l)) l' ls (match toks l with [] => done | ts => done ++ [new_line ts] end)
       end.
(** 50-79. [Panic]: fewer tokens than plus signs; the content ends with an empty line ([last_loc().unwrap()]). The number of the passthrough is kept in the token as a number (the code writes five digits
    and reads five back). *)
Definition pass_placeholder (s : st) (t : tok) (count : nat) (l : iline) (ls : list iline) (n : nat) (sb : subs) (k : tok -> st -> iline -> list iline -> act) : act :=
  let l := adv l (skipn (count - 1) (toks l)) in
  if n <? count - 1 then Crash
  else try (take_pass (n - (count - 1)) l ls []) (fun '(pls, l, ls) =>
    let l := adv l (skipn (count - 1) (toks l)) in
    match rev pls with
    | q :: _ =>
        match toks q with
        | [] => Crash
        | _ =>
            let back := subs_of s in
            Call (set_subs sb s) [] pls (fun ns s _ =>
              k (TokI PreprocPassthru $"^" (Info (repl (inf t)) (at_ (inf t)) (before (inf t)) (length (pass_of s)))) (set_pass (pass_of s ++ [(ns, false)]) (set_subs back s)) l ls)
        end
    | [] => Crash
    end).
(** 7-48: [done]: tokens of the line that replaces this one *)
Fixpoint replace_pass (fuel : nat) (E : env) (s : st) (done : list tok) (prev : option kind) (skip : nat) (l : iline) (ls : list iline) (k : st -> list iline -> act) : act :=
  match toks l with
  | [] => k s (restore (new_line done) ls)
  | t :: r =>
      match fuel with
      | O => Stuck
      | S f =>
          let l := adv l r in
          match skip with
          | S n => replace_pass f E s (done ++ [t]) prev n l ls k
          | O =>
              let same := replace_pass f E s (done ++ [t]) (Some (tk t)) 0 l ls k in
              if is_k MacroName t && bytes_eqb (tx t) $"pass:" then
                match pass_macro_end r ls with
                | None => same
                | Some (d, n) =>
                    try (discard_assert OpenBracket (skipn d r)) (fun m =>
                    try (from_pass_target (dbg E) (text_of (firstn d r))) (fun sb =>
                    pass_placeholder s t 0 (adv l m) ls n sb (fun p s l ls => replace_pass f E s (done ++ [p]) (Some (tk t)) 0 l ls k)))
                end
              else if is_k Plus t && could_be_plus prev r then
                let count := S (plus_run r) in
                try (plus_end E count r ls) (fun o =>
                  match o with
                  | None => same
                  | Some n => pass_placeholder s t count l ls n (from_pass_plus_len count) (fun p s l ls => replace_pass f E s (done ++ [p]) (Some (tk t)) count l ls k)
                  end)
              else same
          end
      end
  end.

(** ** Index terms — index_term.rs *)
(** 82-85 *)
Fixpoint skip_blank (fuel : nat) (ls : list iline) : list iline :=
  match fuel with
  | O => ls
  | S f => if whitespaceish (current_tok ls) then match consume_tok ls with Some (_, ls) => skip_blank f ls | None => ls end else ls
  end.
(** 74-114: parentheses beyond two belong to the term (the code reads them back from the source after the term) *)
Definition index_visible (s : st) (e : nat) (l : iline) (ls : list iline) (k : inode -> st -> list iline -> act) : act :=
  let ls := restore l ls in
  Call s [Len (e mod 256) CloseParens] (skip_blank (total ls) ls) (fun ns s ls => k (NVisible (add_parens (e - 2) (trim_trailing ns))) s ls).
(** 190-240: the terms, and the lines from the closing parentheses on. [None]: out of fuel. *)
Definition trim_back (ts : list tok) : list tok := rev (trim_front (rev ts)).
Definition add_term (ts : list tok) : list (list tok) := match trim_back ts with [] => [] | t => [t] end.
Fixpoint skip_ws (fuel : nat) (ls : list iline) : list iline :=
  match fuel with
  | O => ls
  | S f => if at_k Whitespace (current_tok ls) then match consume_tok ls with Some (_, ls) => skip_ws f ls | None => ls end else ls
  end.
Fixpoint split_csv (fuel : nat) (stop : tspec) (quoted : bool) (cur : list tok) (ls : list iline) : option (list (list tok) * list iline) :=
  match consume_tok ls with
  | None => Some (add_term cur, ls)
  | Some (t, m) =>
      if satisfies stop t then Some (add_term cur, ls)
      else match fuel with
           | O => None
           | S f =>
               if is_k Comma t && negb quoted then
                 match split_csv f stop quoted [] (skip_ws (total m) m) with Some (ts, ls) => Some (add_term cur ++ ts, ls) | None => None end
               else if is_k DoubleQuote t then split_csv f stop (negb quoted) cur m
               else split_csv f stop quoted (cur ++ [t]) m
           end
  end.
Fixpoint call_terms (s : st) (ts : list (list tok)) (k : list (list inode) -> st -> act) : act :=
  match ts with
  | [] => k [] s
  | t :: r => Call s [] [new_line t] (fun ns s _ => call_terms s r (fun nss s => k (ns :: nss) s))
  end.
(** 116-165. [Crash]: no closing parentheses. *)
Definition add_last (t : tok) (ts : list (list tok)) : list (list tok) := match rev ts with x :: r => rev r ++ [x ++ [t]] | [] => [] end.
Definition cut (n : nat) (t : tok) : tok := TokI (tk t) (firstn n (tx t)) (inf t).
Definition index_concealed (E : env) (s : st) (e : nat) (l : iline) (ls : list iline) (k : inode -> st -> list iline -> act) : act :=
  let ls := restore l ls in
  match split_csv (total ls) (Len (e mod 256) CloseParens) false [] ls with
  | None => Stuck
  | Some (terms, ls) =>
      let s := if 3 <? length terms then report TooManyTerms s else s in
      let terms := firstn 3 terms in
      match consume_tok ls with
      | None => Crash
      | Some (c, ls) =>
          if dbg E && negb (is_k CloseParens c) then Crash
          else let terms := if 3 <? length (tx c) then add_last (cut (length (tx c) - 3) c) terms else terms in
               call_terms s terms (fun nss s => k (NConcealed nss) s ls)
      end
  end.
(** 44-72: [n]: the length of the opening parentheses *)
Definition index_shorthand (E : env) (s : st) (n e : nat) (t : tok) (l : iline) (ls : list iline) (a : accum) (k : accum -> inode -> st -> list iline -> act) : act :=
  if n =? 2 then index_visible s e l ls (k a)
  else if e =? 2 then index_visible s 2 l ls (k (push_text (firstn (n - 2) (tx t)) a))
  else if (n =? 3) && (e =? 3) then index_concealed E s 3 l ls (k a)
  else let l := if (e <? n) || (3 <? n) then adv l (cut (n - 3) t :: toks l) else l in index_concealed E s e l ls (k a).

(** ** Macros *)
(** mod.rs:1046-1081: the keys are left as their source. The second part is what follows. *)
Fixpoint kbd_keys (last : option kind) (l : list tok) : bytes * list tok :=
  match l with
  | [] => ([], [])
  | t :: r =>
      if is_k AttrRef t || is_some last && is_k Backslash t then kbd_keys (Some (tk t)) r
      else if is_k CloseBracket t && negb (match last with Some Backslash => true | _ => false end) then ([], l)
      else let (x, m) := kbd_keys (Some (tk t)) r in (tx t ++ x, m)
  end.
Definition positional0 (a : attrs) : bool := match positional a with Some _ :: _ => true | _ => false end.
(** index_term.rs:6-42 *)
Definition index_macro (s : st) (visible : bool) (t : tok) (r : list tok) (k : inode -> st -> list tok -> act) : act :=
  try (discard_assert OpenBracket r) (fun r =>
    with_attrs s r (fun al a s m => if positional0 a then k (NIndexMacro visible al) s m else k (NText (tx t ++ alist_src al)) (report InvalidIndexTerm s) m)).
(** inline_utils.rs:7-25: passthroughs are taken; [None]: it was taken before, or there is none of this number *)
Definition take_passthru (s : st) (t : tok) : option (list inode * st) :=
  match nth_error (pass_of s) (slot (inf t)) with
  | Some (ns, false) => Some (ns, set_pass (firstn (slot (inf t)) (pass_of s) ++ (ns, true) :: skipn (S (slot (inf t))) (pass_of s)) s)
  | _ => None
  end.
(** mod.rs:147-352: [l]: the line after the name [t] *)
Definition inline_macro (E : env) (s : st) (a0 : accum) (ia : option alist) (t : tok) (l : iline) (ls : list iline) : act :=
  let a := commit a0 in
  let r := toks l in
  let next s n m := Go s (push_node n a) ia (Some (adv l m)) ls in
  let named x := bytes_eqb (tx t) x in
  if named $"image:" || named $"icon:" || named $"mailto:" then
    try (macro_target r) (fun '(x, m) => with_attrs s m (fun al _ s m => next s (NMacro (tx t) x al) m))
  else if named $"kbd:" && current_is OpenBracket r then
    let (x, m) := kbd_keys None (tl r) in try (discard_assert CloseBracket m) (fun m => next s (NKeyboard x) m)
  else if named $"footnote:" then
    try (optional_target r) (fun '(id, m) =>
      let back := subs_of s in
      let s := match aps_of s with Some sb => set_subs sb s | None => s end in
      Call s [Kind CloseBracket] (restore (adv l m) ls) (fun ns s ls =>
        let fin s ls :=
          let s := match id, ns with None, [] => report EmptyFootnote s | _, _ => s end in
          Go s (push_node (NFootnote id (match ns with [] => None | _ => Some ns end)) a) ia None ls in
        match aps_of s with
        | None => fin s ls
        | Some _ => match consume_tok ls with Some (c, ls) => if is_k CloseBracket c then fin (set_subs back (set_aps None s)) ls else Crash | None => Crash end
        end))
  else if named $"xref:" then
    try (macro_target r) (fun '(x, m) =>
      Call s [Kind CloseBracket] (restore (adv l m) ls) (fun ns s ls => Go s (push_node (NXref x (match ns with [] => None | _ => Some ns end) false) a) ia None ls))
  else if named $"link:" then
    if negb (no_ws_until OpenBracket false r) then
      match r with [] => Crash | n :: m => Go s (push_text (tx n) (push_text (tx t) a)) ia (Some (adv l m)) ls end
    else
      match r with
      | p :: _ :: m =>
          if starts_with_seq [Kind PreprocPassthru; Kind OpenBracket] r then
            match take_passthru s p with
            | Some (ns, s) => with_link_attrs E s m (fun al c s m => next s (NLinkPass ns al c) m)
            | None => Crash
            end
          else try (macro_target r) (fun '(x, m) => with_link_attrs E s m (fun al c s m => next s (NLink None x (Some al) c) m))
      | _ => try (macro_target r) (fun '(x, m) => with_link_attrs E s m (fun al c s m => next s (NLink None x (Some al) c) m))
      end
  else if named $"btn:" then
    try (discard_assert OpenBracket r) (fun r => try (consume_until CloseBracket r) (fun '(x, m) => try (discard_assert CloseBracket m) (fun m => next s (NButton x) m)))
  else if named $"menu:" then
    try (macro_target r) (fun '(x, m) => try (consume_until CloseBracket m) (fun '(y, m) => try (discard_assert CloseBracket m) (fun m => next s (NMenu x y) m)))
  else if named $"anchor:" then
    try (macro_target r) (fun '(x, m) => with_attrs s m (fun al _ s m => next s (NAnchorMacro x al) m))
  else if named $"indexterm:" then index_macro s false t r (fun n s m => next s n m)
  else if named $"indexterm2:" then index_macro s true t r (fun n s m => next s n m)
  else
    try (if current_is OpenBracket r then Ret ([], tl r) else macro_target r) (fun '(x, m) => with_attrs s m (fun al _ s m => next s (NMacro (tx t) x al) m)).

(** mod.rs:947-997: [m]: the stop tokens but the last are consumed first *)
Definition parse_node (E : env) (s : st) (a : accum) (wrap : list inode -> inode) (after : st -> st) (ia : option alist) (q : list tspec) (l : iline) (ls : list iline) : act :=
  let n := length q - 1 in
  if length (toks l) <? n then Crash
  else Call s q (restore (adv l (skipn n (toks l))) ls) (fun ns s ls => Go (after (set_ctx CNone s)) (newline_if_needed (push_node (wrap ns) a) ls) ia None ls).
Definition same_st (s : st) : st := s.
(** mod.rs:1165-1178 *)
Definition push_simple (s : st) (n : inode) (a : accum) (ia : option alist) (l : iline) (ls : list iline) : act :=
  let ls := restore (adv l (tl (toks l))) ls in Go s (newline_if_needed (push_node n a) ls) ia None ls.
(** mod.rs:1124-1134 *)
Definition callout_tuck (s : st) (t : tok) (a : accum) (ia : option alist) (l : iline) (ls : list iline) : act :=
  try (discard_assert Whitespace (toks l)) (fun m => Go s (push_node (NTuck (tx t ++ $" ")) a) ia (Some (adv l m)) ls).
(** line.rs:896-902. [None]: the sequence does not come. *)
Fixpoint line_before (q : list tspec) (x : iline) (l : list tok) : option (iline * list tok) :=
  if starts_with_seq q l then Some (x, l) else match l with t :: r => line_before q (push_tok x t) r | [] => None end.
(** mod.rs:571-583, 592-601: the reference text is parsed *)
Definition anchor_node (s : st) (r : list tok) (none : st -> act) (k : bytes -> list inode -> st -> list tok -> act) : act :=
  try (parse_anchor false r) (fun '(o, m) =>
    match o with
    | None => none s
    | Some (id, ref) => match ref with [] => k id [] s m | _ => Call s [] [fold_left push_tok ref (new_line [])] (fun ns s _ => k id ns s m) end
    end).
(** mod.rs:372-378 *)
Fixpoint skip_at (n : nat) (l : list tok) : list tok := match l with t :: r => if at_ (inf t) =? n then skip_at n r else l | [] => [] end.
(** mod.rs:834-836 *)
Fixpoint backslashes (l : list tok) : nat := match l with t :: r => if is_k Backslash t then S (backslashes r) else 0 | [] => 0 end.
Definition push_discarded (n : nat) (a : accum) : accum := Nat.iter n (push_node NDiscarded) a.
Definition special_of (k : kind) : option special_kind := match k with Ampersand => Some SAmpersand | LessThan => Some SLessThan | GreaterThan => Some SGreaterThan | _ => None end.
(** mod.rs:443-467 *)
Definition xref_shorthand (s : st) (a : accum) (ia : option alist) (l : iline) (ls : list iline) : act :=
  match line_before [Kind GreaterThan; Kind GreaterThan] (new_line []) (tl (toks l)) with
  | None => Crash
  | Some (inner, m) =>
      try (consume_until Comma (toks inner)) (fun '(x, rest) =>
        let fin text s := Go s (push_node (NXref x text true) a) ia (Some (adv l (skipn 2 m))) ls in
        match rest with
        | [] => fin None s
        | _ :: rest =>
            match trim_front rest with
            | [] => fin None s
            | rest => Call s [] [adv inner rest] (fun ns s _ => fin (Some ns) s)
            end
        end)
  end.
(** mod.rs:469-502 *)
Definition autolink (sb : subs) (s : st) (t : tok) (a : accum) (ia : option alist) (l : iline) (ls : list iline) : act :=
  match toks l with
  | [] => Crash
  | u :: r =>
      match r with
      | [] => Crash
      | _ =>
          match url_to GreaterThan r with
          | O => let a := if contains sb SpecialChars then push_node (NSpecial SLessThan) a else push_node (NText (tx t)) a in Go s (push_text (tx u) a) ia (Some (adv l r)) ls
          | n =>
              match url_scheme u, skipn n r with
              | Some sc, _ :: m => Go s (push_node NDiscarded (push_node (NLink (Some sc) (tx u ++ text_of (firstn n r)) None false) (push_node NDiscarded a))) ia (Some (adv l m)) ls
              | _, _ => Crash
              end
          end
      end
  end.
(** mod.rs:847-869 *)
Definition bare_link (s : st) (t : tok) (a : accum) (ia : option alist) (l : iline) (ls : list iline) : act :=
  match toks l with
  | [] => Crash
  | r =>
      match bare_url r with
      | O => Go s (push_text (tx t) a) ia (Some l) ls
      | n => match url_scheme t with
             | Some sc => Go s (push_node (NLink (Some sc) (tx t ++ text_of (firstn n r)) None false) a) ia (Some (adv l (skipn n r))) ls
             | None => Crash
             end
      end
  end.
(** mod.rs:915-945 *)
Definition uri_macro (E : env) (s : st) (t : tok) (a : accum) (ia : option alist) (l : iline) (ls : list iline) : act :=
  let n := url_to OpenBracket (toks l) in
  try (discard_assert OpenBracket (skipn n (toks l))) (fun m =>
    with_link_attrs E s m (fun al c s m =>
      match url_scheme t with
      | Some sc => Go s (push_node (NLink (Some sc) (tx t ++ text_of (firstn n (toks l))) (Some al) c) (commit a)) ia (Some (adv l m)) ls
      | None => Crash
      end)).
(** mod.rs:823-845 *)
Definition backslash (E : env) (sb : subs) (s : st) (t : tok) (a : accum) (ia : option alist) (l : iline) (ls : list iline) : act :=
  let r := toks l in
  let plain_text := Go s (push_text (tx t) a) ia (Some l) ls in
  match r with
  | [] => plain_text
  | n :: m =>
      if is_k Word n then plain_text
      else if is_k OpenParens n && (2 <? length (tx n)) && is_some (ends_term r ls) then
        (** index_term.rs:167-186 *)
        let a := push_text $"(" (push_node NDiscarded a) in
        match ends_term m ls with
        | None => Crash
        | Some e => index_shorthand E s (length (tx n) - 1) e (cut (length (tx n) - 1) n) (adv l m) ls a (fun a n s ls => Go s (push_node n a) ia None ls)
        end
      else
        let b := backslashes r in
        let a := push_discarded (S b) a in
        let r := skipn b r in
        if negb (contains sb SpecialChars) || negb (current_is Ampersand r) then
          match r with [] => Crash | x :: m => Go s (push_text (tx x) a) ia (Some (adv l m)) ls end
        else Go s a ia (Some (adv l r)) ls
  end.

Definition single (k : kind) : list tspec := [Kind k].
Definition double (k : kind) : list tspec := [Kind k; Kind k].
(** mod.rs:83-881: [t] the token consumed, [l] the rest of its line. [sb]: the substitutions when the text began; [q]: its stop tokens. *)
Definition token_step (E : env) (q : list tspec) (sb : subs) (s : st) (a : accum) (ia : option alist) (t : tok) (l : iline) (ls : list iline) : act :=
  let r := toks l in
  let k x := is_k x t in
  let len := length (tx t) in
  let fmt := contains sb InlineFormatting in
  let chr := contains sb CharReplacement in
  let mac := contains sb Macros in
  let stay s a := Go s a ia (Some l) ls in
  let node n := stay s (push_node n a) in
  let word := stay s (push_text (tx t) a) in
  let span kd c q := parse_node E (match c with Some c => set_ctx c s | None => s end) a (NSpan kd ia) same_st None q l ls in
  let quote d q := parse_node E s a (NQuote d) same_st ia q l ls in
  let constrained q := starts_constrained q t (ctx_of s) (aps_of s) r ls in
  let in_backtick := match q with [Kind Backtick] => true | _ => false end in
  let fallback := Go s (push_text (tx t) (push_unused ia a)) None (Some l) ls in
  if k OpenBracket && fmt && continues_formatted_text_attr_list r then
    try (formatted_attr_list r) (fun '(al, m) => Go s a (Some (AList al ($"[" ++ text_of (consumed r m)) [])) (Some (adv l m)) ls)
  else if k OpenParens && chr && (len =? 1) && starts_with_seq [Kind Word; Len 1 CloseParens] r then
    let x := match r with w :: _ => tx w | [] => [] end in
    let sym n := Go s (push_node (NSymbol n) a) ia (Some (adv l (skipn 2 r))) ls in
    if bytes_eqb x $"C" then sym Copyright else if bytes_eqb x $"TM" then sym Trademark else if bytes_eqb x $"R" then sym Registered else word
  else if k OpenParens && (2 <=? len) && mac then
    match ends_term r ls with
    | Some e => index_shorthand E s len e t l ls a (fun a n s ls => Go s (push_node n a) ia None ls)
    | None => fallback
    end
  else if k Dashes && chr && ((len =? 2) || (len =? 3)) then try (emdash E a t r) (fun '(a, m) => Go s a ia (Some (adv l m)) ls)
  else if k Dots && chr && (len =? 3) then node (NSymbol Ellipsis)
  else if k Dashes && (len =? 1) && chr && current_is GreaterThan r then Go s (push_node (NSymbol RightArrow) a) ia (Some (adv l (tl r))) ls
  else if k EqualSigns && (len =? 1) && chr && current_is GreaterThan r then Go s (push_node (NSymbol DoubleRightArrow) a) ia (Some (adv l (tl r))) ls
  else if k LessThan && chr && starts_with_seq [Len 1 Dashes] r then Go s (push_node (NSymbol LeftArrow) a) ia (Some (adv l (tl r))) ls
  else if k LessThan && chr && starts_with_seq [Len 1 EqualSigns] r then Go s (push_node (NSymbol DoubleLeftArrow) a) ia (Some (adv l (tl r))) ls
  else if k MacroName && mac && continues_inline_macro (bytes_eqb (tx t) $"xref:") r then inline_macro E s a ia t l ls
  else if k MacroName && mac && current_is UriScheme r && bytes_eqb (tx t) $"link:" then
    match r with n :: m => Go s (push_text (tx n) (push_text (tx t) a)) ia (Some (adv l m)) ls | [] => Crash end
  else if k UriScheme && mac && continues_inline_macro false r then uri_macro E s t a ia l ls
  else if k AttrRef && negb (contains sb AttrRefs) then Go s (push_text (tx t) a) ia (Some (adv l (skip_at (at_ (inf t)) r))) ls
  else if k AttrPassDbl then
    try (consume_until OpenBracket r) (fun '(x, m) => try (discard_assert OpenBracket m) (fun m => try (from_pass_target (dbg E) x) (fun ps => Go (set_aps (Some ps) s) a ia (Some (adv l m)) ls)))
  else if k AttrRef && in_cell E && match r with n :: _ => negb (at_ (inf n) =? at_ (inf t)) | [] => false end then node NDiscarded
  else if k TermDelimiter && contains sb Callouts && (len =? 2) && current_is Whitespace r && bytes_eqb (tx t) $";;" && callouts_only r then callout_tuck s t a ia l ls
  else if k Hash && contains sb Callouts && current_is Whitespace r && callouts_only r then callout_tuck s t a ia l ls
  else if k ForwardSlashes && contains sb Callouts && (len =? 2) && current_is Whitespace r && callouts_only r then callout_tuck s t a ia l ls
  else if k CalloutNumber && contains sb Callouts && callouts_only r then
    let a := recover_comment E a in stay s (push_node (NCallout (tx t)) (Acc (nodes_of a) (trim_end (text a))))
  else if k CalloutNumber && contains sb SpecialChars then
    stay s (push_node (NSpecial SGreaterThan) (push_text (removelast (tl (tx t))) (push_node (NSpecial SLessThan) a)))
  else if k LessThan && continues_xref r then xref_shorthand s a ia l ls
  else if k LessThan && mac && current_is UriScheme r && no_ws_until GreaterThan false r then autolink sb s t a ia l ls
  else if k Email && mac then node (NLink (Some $"mailto:") (tx t) None false)
  else if k Underscore && fmt && constrained (single Underscore) then span Italic (Some (CSpecs (single Underscore))) (single Underscore)
  else if k Underscore && fmt && starts_unconstrained Underscore t r ls then span Italic (Some (CSpecs (double Underscore))) (double Underscore)
  else if k Star && fmt && constrained (single Star) then span Bold (Some (CSpecs (single Star))) (single Star)
  else if k Star && fmt && starts_unconstrained Star t r ls then span Bold (Some (CSpecs (double Star))) (double Star)
  else if k OpenBracket && starts_with_seq (double OpenBracket) r && biblio_list E && contains_seq [Kind CloseBracket; Kind CloseBracket; Kind CloseBracket] r then
    let m := skipn 2 r in
    anchor_node s m (fun s => Go s (push_text (text_of (firstn 2 r) ++ tx t) a) ia (Some (adv l m)) ls)
      (fun id ref s m => match m with [] => Crash | _ :: m => Go s (push_node (NBiblio id ref) a) ia (Some (adv l m)) ls end)
  else if k OpenBracket && starts_with_seq (double OpenBracket) r then word
  else if k OpenBracket && continues_inline_anchor r then
    anchor_node s (tl r) (fun s => Go s (push_text (text_of (firstn 1 r) ++ tx t) a) ia (Some (adv l (tl r))) ls)
      (fun id ref s m => Go s (push_node (NAnchor id ref) a) ia (Some (adv l m)) ls)
  else if k Backtick && fmt && starts_with_seq [Kind Plus; Not Plus] r && negb (starts_with_seq [Kind Plus; Kind Backtick] r) && any_seq [Len 1 Plus; Kind Backtick] r ls then
    try (remove (subs_of s) InlineFormatting) (fun x => try (remove x AttrRefs) (fun x =>
      parse_node E (set_subs x s) a (NSpan LitMono ia) (set_subs sb) None [Len 1 Plus; Kind Backtick] l ls))
  else if k Caret && fmt && no_ws_until Caret false r then span Superscript None (single Caret)
  else if k Backtick && fmt && constrained (single Backtick) then span Mono (Some (CSpecs (single Backtick))) (single Backtick)
  else if k Backtick && fmt && starts_unconstrained Backtick t r ls then span Mono None (double Backtick)
  else if k DoubleQuote && fmt && current_is Backtick r && constrained [Kind Backtick; Kind DoubleQuote] then quote true [Kind Backtick; Kind DoubleQuote]
  else if k SingleQuote && fmt && current_is Backtick r && constrained [Kind Backtick; Kind SingleQuote] then quote false [Kind Backtick; Kind SingleQuote]
  else if k Tilde && fmt && no_ws_until Tilde false r then span Subscript None (single Tilde)
  else if k Backtick && fmt && current_is DoubleQuote r then push_simple s (NCurly RightDouble) a ia l ls
  else if k DoubleQuote && fmt && current_is Backtick r && negb in_backtick then push_simple s (NCurly LeftDouble) a ia l ls
  else if k Backtick && fmt && current_is SingleQuote r then push_simple s (NCurly RightSingle) a ia l ls
  else if k SingleQuote && fmt && current_is Backtick r && negb in_backtick then push_simple s (NCurly LeftSingle) a ia l ls
  else if k Hash && fmt && starts_unconstrained Hash t r ls then span (match ia with Some _ => TextSpan | None => Highlight end) (Some (CSpecs (double Hash))) (double Hash)
  else if k Hash && fmt && constrained (single Hash) then span (match ia with Some _ => TextSpan | None => Highlight end) (Some (CSpecs (single Hash))) (single Hash)
  else if k Ampersand && starts_with_seq [Kind Hash; Kind Digits; Kind SemiColon] r then word
  else match (if contains sb SpecialChars then special_of (tk t) else None) with
  | Some sp => node (NSpecial sp)
  | None =>
  if k SingleQuote && current_is Word r && fmt then
    if match text a with [] => true | _ => false end || ends_break E (text a) then word else node (NCurly Apostrophe)
  else if k Whitespace && (1 <? len) && fmt then node (NSpaces (tx t))
  else if k Whitespace && current_is Plus r && match r with _ :: n :: _ => is_k Newline n | _ => true end then
    let a := push_node NLineBreak a in
    match tl r with [] => Go s a ia None ls | _ :: m => Go s a ia (Some (adv l m)) ls end
  else if k Newline then node NNewline
  else if k Discard || k AttrRef then stay s a
  else if k Backslash then backslash E sb s t a ia l ls
  else if k UriScheme && mac && match ctx_of s with CLink => false | _ => true end then bare_link s t a ia l ls
  else if k PreprocPassthru then match take_passthru s t with Some (ns, s) => stay s (push_node (NPass ns) a) | None => Crash end
  else fallback
  end.

(** mod.rs:34-81: the next line, or the next token of the current line. (41: comments are read as such unless callouts are.) *)
Definition is_comment (l : iline) : bool := unconsumed l && starts_with_seq [Len 2 ForwardSlashes] (toks l).
Definition step (E : env) (q : list tspec) (sb : subs) (s : st) (a : accum) (ia : option alist) (cur : option iline) (ls : list iline) : act :=
  match cur with
  | None =>
      match ls with
      | [] => Fin s (finish a ia) []
      | l :: ls =>
          if stops E l then Fin s (finish (Acc (remove_trailing_newline (nodes_of a)) (text a)) ia) (restore l ls)
          else if is_comment l && negb (contains sb Callouts) then
            let a := match ls with [] => Acc (discard_trailing_newline (nodes_of a)) (text a) | _ => a end in
            Go s (push_node (NComment (text_of (tl (toks l)))) a) ia None ls
          else Go s a ia (Some l) ls
      end
  | Some l =>
      if at_stop q (toks l) then Fin s (finish (commit a) ia) (restore (adv l (skipn (length q) (toks l))) ls)
      else try (may_contain_pass l) (fun b =>
        if b then replace_pass (length (toks l) + total ls) E s [] None 0 l ls (fun s ls => Go s a ia None ls)
        else match toks l with
             | [] => Go s (joining_newline a ls) ia None ls
             | t :: r => token_step E q sb s a ia t (adv l r) ls
             end)
  end.

(** mod.rs:18-32, 34-886. [Loops]: out of fuel. *)
Inductive ires := Done (s : st) (ns : list inode) (ls : list iline) | Crashed | Loops.
Fixpoint go (fuel : nat) (E : env) (q : list tspec) (sb : subs) (s : st) (a : accum) (ia : option alist) (cur : option iline) (ls : list iline) : ires :=
  match fuel with
  | O => Loops
  | S f =>
      (fix exec (x : act) : ires :=
         match x with
         | Crash => Crashed
         | Stuck => Loops
         | Fin s ns ls => Done s ns ls
         | Go s a ia cur ls => go f E q sb s a ia cur ls
         | Call s q' ls k =>
             match ls with
             | [] => exec (k [] s [])
             | l :: _ =>
                 match toks l with
                 | [] => Crashed
                 | _ => match go f E q' (subs_of s) s acc0 None None ls with
                        | Done s ns ls => exec (k ns s ls)
                        | x => x
                        end
                 end
             end
         end) (step E q sb s a ia cur ls)
  end.
Definition parse_inlines_until (fuel : nat) (E : env) (q : list tspec) (s : st) (ls : list iline) : ires :=
  match ls with
  | [] => Done s [] []
  | l :: _ => match toks l with [] => Crashed | _ => go fuel E q (subs_of s) s acc0 None None ls end
  end.
