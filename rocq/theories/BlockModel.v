(** Model of the block parser: parser/src/tasks/parse_block.rs, parse_list.rs, parse_section.rs, parse_book.rs, parse_book_part.rs, the start of parse_image_block.rs and of table/parse_table.rs, parser.rs:98-206
    and 286-345, contiguous_lines.rs, chunk.rs, delimiter.rs, heading_level.rs:4-34 and the parts of line.rs and parse_context.rs they use. Texts are parsed by the inline parser of InlineModel.v.
    Simplified: the source is given as the list of lines that _read_line (parser.rs:110-150) would give, so attribute references have been replaced, directives have been followed and attribute
    definitions are one AttrDef token; a line with no tokens is a blank line. (An attribute definition makes the rest of its paragraph be read again, parse_block.rs:115-118: those lines are put back.)
    Left out: locations of blocks; section ids, anchors, the table of contents and callout numbers; the cells of tables (TableModel.v); the values of attributes are not parsed as texts, so a positional
    attribute is the text of its tokens; the option "indent" of delimited blocks; the options and languages of fenced code. Errors are recorded and parsing goes on, as when the parser is not strict. *)
From Verif Require Export InlineModel InlineSpec InlineTermSpec.
From Verif Require ListStackModel.
Module LS := ListStackModel.

(** ** Lines *)
(** line.rs:254-256 *)
Definition emptyish (ts : list tok) : bool := forallb (fun t => whitespaceish (Some t)) ts.
(** line.rs:226-243: the level of a heading, [as u8] *)
Fixpoint hashes (l : list tok) : nat := match l with t :: r => if is_k Hash t then S (hashes r) else 0 | [] => 0 end.
Definition unadjusted_level (l : list tok) : option nat :=
  if starts_with_seq [Kind EqualSigns; Kind Whitespace] l && (2 <? length l) then
    match l with t :: _ => Some ((length (tx t) - 1) mod 256) | [] => None end
  else if current_is Hash l && contains_seq [Kind Hash; Kind Whitespace] l && (2 <? length l) then
    let n := hashes l in if (n + 1 <? length l) && at_k Whitespace (nth_error l n) then Some ((n - 1) mod 256) else None
  else None.
(** token.rs:253-267; [removelast]: the colon *)
Definition can_start_block_macro (t : tok) : bool :=
  is_k MacroName t && (existsb (bytes_eqb (tx t)) [$"image:"; $"toc:"; $"audio:"; $"video:"] || negb (LexerModel.one_of LexerModel.builtin_macros (removelast (tx t)))).
(** line.rs:262-267 *)
Definition is_block_macro (l : list tok) : bool :=
  starts_with_seq [Kind MacroName; Kind Colon] l && match l with t :: _ => can_start_block_macro t | [] => false end && existsb (is_k OpenBracket) l && ends_with_nonescaped CloseBracket l.
(** line.rs:269-274 *)
Definition attr_list_line (l : iline) : bool := unconsumed l && is_block_attr_list (toks l).
(** line.rs:276-286: also of a line partly read *)
Definition anchor_line (l : iline) : bool := is_block_anchor (toks l).
(** line.rs:288-293 *)
Definition chunk_title (l : iline) : bool :=
  match toks l with t :: u :: _ => is_k Dots t && len_is 1 t && negb (is_k Whitespace u) && unconsumed l | _ => false end.
(** line.rs:221-223 *)
Definition before_trailing_ws (l : list tok) : nat := length l - (if at_k Whitespace (last_token l) then 1 else 0).

(** ** Delimiters — delimiter.rs:4-60. The length is a u8. *)
Inductive dkind := DBlockQuote | DExample | DOpen | DSidebar | DLiteral | DListing | DPassthrough | DComment.
Scheme Equality for dkind.
Record delimiter := Delim { dk : dkind; dlen : nat }.
Definition delimiter_eqb (x y : delimiter) : bool := dkind_beq (dk x) (dk y) && (dlen x =? dlen y).
Definition delimiter_kind (x : bytes) : dkind :=
  if bytes_eqb x $"****" then DSidebar else if bytes_eqb x $"____" then DBlockQuote else if bytes_eqb x $"----" || bytes_eqb x $"```" then DListing
  else if bytes_eqb x $"...." then DLiteral else if bytes_eqb x $"++++" then DPassthrough else if bytes_eqb x $"////" then DComment else if bytes_eqb x $"--" then DOpen else DExample.
Definition to_delimiter (t : tok) : option delimiter := if is_k DelimiterLine t then Some (Delim (delimiter_kind (tx t)) (length (tx t) mod 256)) else None.
Definition is_delim (d : delimiter) (o : option delimiter) : bool := match o with Some e => delimiter_eqb d e | None => false end.
(** line.rs:295-297 *)
Definition is_delimiter (d : delimiter) (l : list tok) : bool := match l with [t] => is_delim d (to_delimiter t) | _ => false end.
(** line.rs:304-306 *)
Definition is_any_delimiter (l : list tok) : bool := match l with [t] => is_k DelimiterLine t | _ => false end.
(** parser.rs:209-230 and source_lexer.rs:158-201: the next line of the source begins with this delimiter; [dlen] has been cut to a u8, the length in the source has not *)
Definition opens_with (d : delimiter) (l : list tok) : bool :=
  match l with
  | t :: _ => is_k DelimiterLine t && dkind_beq (dk d) (delimiter_kind (tx t)) &&
              match dk d with DExample => length (tx t) =? dlen d | DListing => length (tx t) =? (if dlen d =? 3 then 3 else 4) | _ => true end
  | [] => false
  end.

(** ** List items *)
Definition digits_value (x : bytes) : nat := fold_left (fun n c => 10 * n + (nat_of_ascii c - 48)) x 0.
Definition only_digits (x : bytes) : bytes := filter (fun c => (48 <=? nat_of_ascii c) && (nat_of_ascii c <=? 57)) x.
(** token.rs:130-146 *)
Definition callout_num (x : bytes) : option nat := match only_digits x with [] => None | d => if digits_value d <=? 255 then Some (digits_value d) else None end.
(** line.rs:746-756 *)
Definition reassembled (l : list tok) : bytes := flat_map (fun t => if LineModel.one_of [AttrRef; Discard] t then [] else tx t) l.
(** line.rs:795: the regular expression ^\s?(\*+)( |\t)+.+ *)
Fixpoint star_run (x : bytes) : nat := match x with c :: r => if Ascii.eqb c "*"%char then S (star_run r) else 0 | [] => 0 end.
Definition star_item (x : bytes) : option nat :=
  let y := match x with c :: r => if mem c [" "%char; TAB; VT; FF; LF; CR] then r else x | [] => x end in
  match star_run y, skipn (star_run y) y with
  | S n, c :: _ :: _ => if mem c [" "%char; TAB] then Some (S n) else None
  | _, _ => None
  end.
(** line.rs:758-819. [None]: also where a number does not fit a u16. The flag term_delim says that the line has a TermDelimiter (line.rs:60-72). *)
Fixpoint term_marker (l : list tok) : option LS.marker :=
  match l with
  | t :: r => if is_k TermDelimiter t then
                Some (if bytes_eqb (tx t) $";;" then LS.SemiColons else LS.Colons (length (tx t)))
              else term_marker r
  | [] => None
  end.
Definition list_marker (l : iline) : option LS.marker :=
  if is_comment l || current_is EqualSigns (toks l) then None
  else
    let r := if current_is Whitespace (toks l) then tl (toks l) else toks l in
    let off := length (toks l) - length r in
    let second := nth_error r 1 in let third := nth_error r 2 in
    match r with
    | [] => None
    | t :: _ =>
        if is_k Star t && at_k Whitespace second && is_some third &&
           negb ((before_trailing_ws (toks l) =? off + 5) && at_k Star third && at_k Whitespace (nth_error r 3) && at_k Star (nth_error r 4)) then Some (LS.Star 1)
        else if is_k Dots t && at_k Whitespace second && is_some third then Some (LS.dots (length (tx t)))
        else if is_k Dashes t && at_k Whitespace second && len_is 1 t && match third with Some u => negb (is_k Dashes u && len_is 1 u) | None => false end then Some LS.Dash
        else if is_k Star t && at_k Star second then match star_item (reassembled (toks l)) with Some n => Some (LS.stars n) | None => None end
        else if is_k CalloutNumber t && at_k Whitespace second && negb (match nth_error (tx t) 1 with Some c => Ascii.eqb c "!"%char | None => false end) then Some (LS.Callout (callout_num (tx t)))
        else if is_k Digits t && at_k Dots second && at_k Whitespace third then if digits_value (tx t) <=? 65535 then Some (LS.Digits (digits_value (tx t))) else None
        else if is_k TermDelimiter t then None
        else term_marker r
    end.
Definition is_description (m : LS.marker) : bool := match m with LS.Colons _ | LS.SemiColons => true | _ => false end.
Definition starts_item (l : iline) : bool := is_some (list_marker l).
Definition starts_desc_item (l : iline) : bool := match list_marker l with Some m => is_description m | None => false end.
(** line.rs:844-846 *)
Definition is_continuation (l : iline) : bool := match toks l with [t] => is_k Plus t | _ => false end.
(** line.rs:833-842 *)
Definition continues_principle (l : iline) : bool :=
  if is_comment l then false
  else match toks l with
       | [] => false
       | t :: _ => if is_k Plus t then false else if is_k OpenBracket t then negb (attr_list_line l) else negb (starts_item l) && negb (is_any_delimiter (toks l))
       end.
(** line.rs:848-859 *)
Definition trim_leading (l : iline) : iline := adv l (trim_front (toks l)).
Definition discard_leading (l : iline) : iline :=
  match toks l with t :: r => if is_k Whitespace t then adv l (TokI Discard (tx t) (inf t) :: r) else l | [] => l end.
(** line.rs:868-874 *)
Definition nested_item (s : LS.stack) (l : iline) : bool := match list_marker l with Some m => LS.starts_nested_list s m | None => false end.

(** ** Groups of lines — contiguous_lines.rs *)
(** 180-191 *)
Fixpoint starts_list (ls : list iline) : bool := match ls with l :: r => if starts_item l then true else if is_comment l then starts_list r else false | [] => false end.
(** 193-204 *)
Fixpoint starts_extra (m : LS.marker) (ls : list iline) : bool :=
  match ls with
  | l :: r => if match list_marker l with Some n => LS.marker_eqb n m | None => false end then true else if is_comment l then starts_extra m r else false
  | [] => false
  end.
(** 213-224 *)
Definition starts_nested (s : LS.stack) (allow_attrs : bool) (ls : list iline) : bool :=
  match ls with
  | l :: r => if negb allow_attrs || negb (attr_list_line l) then nested_item s l else match r with m :: _ => nested_item s m | [] => false end
  | [] => false
  end.
(** 226-234 *)
Definition starts_continuation (ls : list iline) : bool := match ls with l :: _ :: _ => is_continuation l | _ => false end.
(** 244-251, 253-257 *)
Fixpoint drop_comments (ls : list iline) : list iline := match ls with l :: r => if is_comment l then drop_comments r else ls | [] => [] end.
Fixpoint drop_empty (ls : list iline) : list iline := match ls with l :: r => match toks l with [] => drop_empty r | _ => ls end | [] => [] end.
(** 259-267 *)
Fixpoint drop_until (p : iline -> bool) (ls : list iline) : list iline := match ls with l :: r => if p l then ls else drop_until p r | [] => [] end.
(** 155-178 *)
Definition is_quoted (markdown : bool) (ls : list iline) : bool :=
  match ls, rev ls with
  | first :: _ :: _, last :: penult :: _ =>
      starts_with_seq [Kind Dashes; Kind Whitespace] (toks last) && (2 <? length (toks last)) && match toks last with t :: _ => len_is 2 t | [] => false end &&
      (if markdown then match toks first with [] => false | _ => true end
       else current_is DoubleQuote (toks first) && (1 <? length (toks first)) && at_k DoubleQuote (last_token (toks penult)))
  | _, _ => false
  end.
(** 269-286 *)
Definition trim_uniform (ls : list iline) : option (list iline) :=
  match ls with
  | l :: _ => match toks l with
              | t :: _ => if is_k Whitespace t && forallb (fun l => match toks l with u :: _ :: _ => is_k Whitespace u && (length (tx u) =? length (tx t) mod 256) | _ => false end) ls
                          then Some (map (fun l => adv l (tl (toks l))) ls) else None
              | [] => None
              end
  | [] => None
  end.

(** ** What is parsed *)
(** ast/src/block.rs, the contexts that matter here *)
Inductive context := CParagraph | CSidebar | CBlockQuote | CListing | CLiteral | CPassthrough | CComment | CVerse | CExample | COpen | CAdmonition (x : bytes) | CAudio | CVideo.
Definition context_of (d : dkind) : context :=
  match d with DSidebar => CSidebar | DOpen => COpen | DExample => CExample | DBlockQuote => CBlockQuote | DListing => CListing | DLiteral => CLiteral | DPassthrough => CPassthrough | DComment => CComment end.
(** ast/src/chunk_meta.rs: the attribute lists and the title *)
Record meta := Meta { m_attrs : list attrs; m_title : option (list inode) }.
Definition attrs_empty (a : attrs) : bool :=
  match positional a, named a, options a, roles a, aid a with [], [], [], [], None => true | _, _, _, _, _ => false end.
Definition meta_empty (m : meta) : bool := forallb attrs_empty (m_attrs m) && negb (is_some (m_title m)).
(** ast/src/attr_list.rs:50-55, 65-71, 104-109 and multi_attr_list.rs *)
Definition str_at (n : nat) (a : attrs) : option bytes := match nth_error (positional a) n with Some (Some v) => Some (text_of v) | _ => None end.
Definition has_positional (x : bytes) (m : meta) : bool := existsb (fun a => existsb (fun o => match o with Some v => bytes_eqb (text_of v) x | None => false end) (positional a)) (m_attrs m).
Fixpoint find_map {A B} (f : A -> option B) (l : list A) : option B := match l with x :: r => match f x with Some y => Some y | None => find_map f r end | [] => None end.
Definition positional_at (n : nat) (m : meta) : option bytes := find_map (str_at n) (m_attrs m).
Definition named_at (x : bytes) (m : meta) : option bytes := find_map (fun a => find_map (fun p => if bytes_eqb (fst p) x then Some (text_of (snd p)) else None) (named a)) (m_attrs m).
Definition is_discrete (m : meta) : bool := has_positional $"discrete" m || has_positional $"float" m.
(** ast/src/block.rs:143-167 *)
Definition admonition (x : bytes) : option context := if existsb (bytes_eqb x) [$"CAUTION"; $"IMPORTANT"; $"NOTE"; $"TIP"; $"WARNING"] then Some (CAdmonition x) else None.
Definition derive (x : bytes) : option context :=
  if bytes_eqb x $"sidebar" then Some CSidebar else if bytes_eqb x $"quote" then Some CBlockQuote else if bytes_eqb x $"listing" || bytes_eqb x $"source" then Some CListing
  else if bytes_eqb x $"literal" then Some CLiteral else if bytes_eqb x $"pass" then Some CPassthrough else if bytes_eqb x $"comment" then Some CComment else if bytes_eqb x $"verse" then Some CVerse
  else if bytes_eqb x $"example" then Some CExample else if bytes_eqb x $"normal" then Some CParagraph else admonition x.
(** ast/src/attr_list.rs:129-146 *)
Definition masquerade (c : context) (a : attrs) : option context :=
  match match str_at 0 a with Some x => derive x | None => None end with
  | None => None
  | Some m => match c, m with
              | COpen, _ | CParagraph, _ => Some m
              | CListing, CLiteral | CLiteral, CListing | CBlockQuote, CVerse => Some m
              | CExample, CAdmonition _ => Some m
              | _, _ => None
              end
  end.
Definition block_style (c : context) (m : meta) : option context := find_map (masquerade c) (m_attrs m).

(** the blocks of the document, with the tokens and lines that made them *)
Inductive blk :=
| BParagraph (m : meta) (c : context) (ns : list inode)
| BQuoted (m : meta) (quote attr : list inode) (cite : option (list inode))
| BMacro (m : meta) (l : list tok)
| BDiscrete (m : meta) (ns : list inode)
| BDelimited (m : meta) (c : context) (open : tok) (content : body) (closed : bool)
| BTable (m : meta) (delim : list tok) (content : list (list tok)) (closed : bool)
| BMarkdown (m : meta) (bs : list blk)
| BAttr (m : meta) (t : tok)
| BBreak (m : meta) (l : list tok)
| BList (m : option meta) (mk : LS.marker) (items : list item)
| BSection (x : sect)
| BComment
with body := Simple (ns : list inode) | Compound (bs : list blk) | Hidden (ls : list iline)
with item :=
| Item (mk : LS.marker) (check : option bool) (ns : list inode) (bs : list blk)
| DItem (mk : LS.marker) (term : list inode) (more : list (list inode)) (desc : option blk) (bs : list blk)
with sect := Sect (m : meta) (level : nat) (heading : list inode) (bs : list blk).

Inductive problem := Unattached | BadAnchor | NeverClosed | TableNeverClosed | Dangling | LevelZero | OutOfSequence | EmptyPart.
Inductive bibl := NoBib | InSection | InList.
(** parser.rs: the lexer, peeked_lines ([]: none), peeked_meta; parse_context.rs: delimiter, section_level, list.stack, list.parsing_continuations, in_markdown_blockquote, can_nest_blocks,
    bibliography_ctx, custom_line_comment, and what the inline parser keeps; the errors. [empties] and [strays] are not in the code: how many paragraphs gave nothing
    (parse_block.rs:428-431), and how often the attributes that were put back with a heading went to lines that do not start with a heading. *)
Record pst := PSt { src : list (list tok); peeked : list iline; pmeta : option meta; delim : option delimiter; level : nat; stk : LS.stack; conts : bool; inmd : bool; nests : bool;
                    bib : bibl; cmt : option bytes; ist : st; probs : list problem; empties : nat; strays : nat }.
Definition with_src x s := PSt x (peeked s) (pmeta s) (delim s) (level s) (stk s) (conts s) (inmd s) (nests s) (bib s) (cmt s) (ist s) (probs s) (empties s) (strays s).
Definition with_peeked x s := PSt (src s) x (pmeta s) (delim s) (level s) (stk s) (conts s) (inmd s) (nests s) (bib s) (cmt s) (ist s) (probs s) (empties s) (strays s).
Definition with_pmeta x s := PSt (src s) (peeked s) x (delim s) (level s) (stk s) (conts s) (inmd s) (nests s) (bib s) (cmt s) (ist s) (probs s) (empties s) (strays s).
Definition with_delim x s := PSt (src s) (peeked s) (pmeta s) x (level s) (stk s) (conts s) (inmd s) (nests s) (bib s) (cmt s) (ist s) (probs s) (empties s) (strays s).
Definition with_level x s := PSt (src s) (peeked s) (pmeta s) (delim s) x (stk s) (conts s) (inmd s) (nests s) (bib s) (cmt s) (ist s) (probs s) (empties s) (strays s).
Definition with_stk x s := PSt (src s) (peeked s) (pmeta s) (delim s) (level s) x (conts s) (inmd s) (nests s) (bib s) (cmt s) (ist s) (probs s) (empties s) (strays s).
Definition with_conts x s := PSt (src s) (peeked s) (pmeta s) (delim s) (level s) (stk s) x (inmd s) (nests s) (bib s) (cmt s) (ist s) (probs s) (empties s) (strays s).
Definition with_inmd x s := PSt (src s) (peeked s) (pmeta s) (delim s) (level s) (stk s) (conts s) x (nests s) (bib s) (cmt s) (ist s) (probs s) (empties s) (strays s).
Definition with_nests x s := PSt (src s) (peeked s) (pmeta s) (delim s) (level s) (stk s) (conts s) (inmd s) x (bib s) (cmt s) (ist s) (probs s) (empties s) (strays s).
Definition with_bib x s := PSt (src s) (peeked s) (pmeta s) (delim s) (level s) (stk s) (conts s) (inmd s) (nests s) x (cmt s) (ist s) (probs s) (empties s) (strays s).
Definition with_cmt x s := PSt (src s) (peeked s) (pmeta s) (delim s) (level s) (stk s) (conts s) (inmd s) (nests s) (bib s) x (ist s) (probs s) (empties s) (strays s).
Definition with_ist x s := PSt (src s) (peeked s) (pmeta s) (delim s) (level s) (stk s) (conts s) (inmd s) (nests s) (bib s) (cmt s) x (probs s) (empties s) (strays s).
Definition problem_at x s := PSt (src s) (peeked s) (pmeta s) (delim s) (level s) (stk s) (conts s) (inmd s) (nests s) (bib s) (cmt s) (ist s) (probs s ++ [x]) (empties s) (strays s).
Definition one_empty s := PSt (src s) (peeked s) (pmeta s) (delim s) (level s) (stk s) (conts s) (inmd s) (nests s) (bib s) (cmt s) (ist s) (probs s) (S (empties s)) (strays s).
Definition one_stray s := PSt (src s) (peeked s) (pmeta s) (delim s) (level s) (stk s) (conts s) (inmd s) (nests s) (bib s) (cmt s) (ist s) (probs s) (empties s) (S (strays s)).

(** What does not change while a document is parsed: debug assertions are on; what Unicode says (as in [env]); a table cell is being parsed; how leveloffset changes a level (heading_level.rs:4-12,
    HeadingLevelModel.v); customize_subs::from_meta; which first attributes make a section special (ast/src/special_section.rs); the document is a book *)
Record params := Params { p_env : env; adjust : nat -> nat; custom_subs : list attrs -> subs -> subs; special_name : bytes -> bool; book : bool }.
Inductive out (A : Type) := Yes (a : A) (s : pst) | Panics | More.
Arguments Yes {A} a s. Arguments Panics {A}. Arguments More {A}.
Definition bind {A B} (o : out A) (k : A -> pst -> out B) : out B := match o with Yes a s => k a s | Panics => Panics | More => More end.
Notation "'take' ( x , s ) := e 'in' k" := (bind e (fun x s => k)) (at level 200, x name, s name, right associativity).

(** ** Reading — parser.rs:152-189 *)
Fixpoint skip_empty (l : list (list tok)) : list (list tok) := match l with x :: r => if emptyish x then skip_empty r else l | [] => [] end.
(** the lines of a group after its first, and the source left: a line with no tokens is not read, a line of white space is *)
Fixpoint group (l : list (list tok)) : list iline * list (list tok) :=
  match l with
  | [] => ([], [])
  | x :: r => match x with
              | [] => ([], l)
              | _ => if emptyish x then ([], r) else let (g, m) := group r in (line_of x :: g, m)
              end
  end.
Definition read_lines (s : pst) : list iline * pst :=
  match peeked s with
  | [] => match skip_empty (src s) with
          | [] => ([], with_src [] s)
          | x :: r => let (g, m) := group r in (line_of x :: g, with_src m s)
          end
  | ls => (ls, with_peeked [] s)
  end.
(** parser.rs:191-207: what is read up to a delimiter, the delimiter not read unless it was in the first group *)
Fixpoint until_delim (d : delimiter) (l : list (list tok)) : list iline * list (list tok) :=
  match l with
  | [] => ([], [])
  | x :: r => if opens_with d x then ([], l) else let (g, m) := until_delim d r in (line_of x :: g, m)
  end.
Definition read_until (d : delimiter) (s : pst) : list iline * pst :=
  let (ls, s) := read_lines s in
  match ls with
  | [] => ([], s)
  | _ => if existsb (fun l => is_delimiter d (toks l)) ls then (ls, s)
         else let (g, m) := until_delim d (src s) in (rev (drop_empty (rev (ls ++ g))), with_src m s)
  end.
(** parser.rs:233-250. [peeked_lines] is overwritten in a release build. *)
Definition restore_lines (P : params) (ls : list iline) (s : pst) : out unit :=
  match peeked s, ls with
  | _ :: _, _ => if dbg (p_env P) then Panics else Yes tt (match ls with [] => s | _ => with_peeked ls s end)
  | [], _ => Yes tt (with_peeked ls s)
  end.
Definition restore_meta (P : params) (m : meta) (s : pst) : out unit :=
  if meta_empty m then Yes tt s else match pmeta s with Some _ => if dbg (p_env P) then Panics else Yes tt (with_pmeta (Some m) s) | None => Yes tt (with_pmeta (Some m) s) end.
Definition restore_peeked (P : params) (ls : list iline) (m : meta) (s : pst) : out unit := take (_, s) := restore_lines P ls s in restore_meta P m s.

(** ** Texts *)
(** parse_context.rs:204-222 *)
Definition in_desc_list (s : pst) : bool := negb (is_some (delim s)) && match stk s with m :: _ => is_description m | [] => false end.
Definition simple_desc_def (s : pst) : bool := negb (conts s) && in_desc_list s.
(** mod.rs:999-1021 *)
Definition stops_at (s : pst) (l : iline) : bool :=
  current_is DelimiterLine (toks l) && nests s
  || (attr_list_line l || anchor_line l) && negb (is_some (delim s))
  || in_desc_list s && (starts_desc_item l || is_continuation l)
  || conts s && is_continuation l
  || match delim s, toks l with Some d, t :: _ => is_delim d (to_delimiter t) | _, _ => false end.
Definition env_of (P : params) (s : pst) : env :=
  let E := p_env P in
  Env (dbg E) (stops_at s) (fun l => match delim s with Some d => is_delimiter d (toks l) | None => false end) (in_cell E) (match bib s with InList => true | _ => false end) (cmt s)
      (ends_word E) (starts_word E) (ends_break E).
(** mod.rs:18-32: the nodes and the lines left *)
Definition inlines (P : params) (ls : list iline) (s : pst) : out (list inode * list iline) :=
  match parse_inlines_until (enough ls) (env_of P s) [] (ist s) ls with Done i ns r => Yes (ns, r) (with_ist i s) | Crashed => Panics | Loops => More end.
(** parse_context.rs:180-200 *)
Definition subs_for (P : params) (c : context) (m : meta) (x : subs) : subs :=
  custom_subs P (m_attrs m) (match c with
                             | CPassthrough => SubsModel.none
                             | CListing | CLiteral => verbatim
                             | CParagraph => if has_positional $"source" m then verbatim else x
                             | _ => x
                             end).
Definition set_ist_subs (x : subs) (s : pst) : pst := with_ist (set_subs x (ist s)) s.

(** ** Attribute lists, anchors and titles before a block — parser.rs:300-345. [Panic] of AttrListModel.v is a panic here. *)
Fixpoint meta_lines (P : params) (ls : list iline) (m : meta) (s : pst) : out (meta * list iline) :=
  match ls with
  | [] => Yes (m, []) s
  | l :: r =>
      if chunk_title l then take (x, s) := inlines P [adv l (tl (toks l))] s in meta_lines P r (Meta (m_attrs m) (Some (fst x))) s
      else if attr_list_line l then
        match block_attr_list (tl (toks l)) with Ret (a, _) => meta_lines P r (Meta (m_attrs m ++ [a]) (m_title m)) s | Panic => Panics end
      else if anchor_line l then
        match parse_anchor true (tl (tl (toks l))) with
        | Ret (Some (i, ref), _) => meta_lines P r (Meta (m_attrs m ++ [set_id i (push_positional (match ref with [] => None | _ => Some ref end) no_attrs)]) (m_title m)) s
        | Ret (None, _) => Yes (m, r) (problem_at BadAnchor s)
        | Panic => Panics
        end
      else if is_comment l && (match m_attrs m with [] => false | _ => true end || is_some (m_title m)) then meta_lines P r m s
      else Yes (m, ls) s
  end.
Definition no_meta : meta := Meta [] None.
(** heading_level.rs:4-12 *)
Definition heading_level (P : params) (l : list tok) : option nat := match unadjusted_level l with Some n => Some (adjust P n) | None => None end.
(** lines that start with a heading *)
Definition heading_first (P : params) (ls : list iline) : bool := match drop_comments ls with l :: _ => is_some (heading_level P (toks l)) | [] => false end.
(** parser.rs:300-313 *)
Definition chunk_meta (P : params) (ls : list iline) (s : pst) : out (meta * list iline) :=
  match pmeta s with
  | Some m => Yes (m, ls) (let s := with_pmeta None s in if heading_first P ls then s else one_stray s)
  | None => match ls with
            | [] => Panics
            | l :: _ => match toks l with
                        | [] => Panics
                        | _ => if unconsumed l then meta_lines P ls no_meta s else Yes (no_meta, ls) s
                        end
            end
  end.
(** heading_level.rs:14-34 *)
Fixpoint start_level (P : params) (ls : list iline) : option nat :=
  match ls with l :: r => if attr_list_line l || chunk_title l || is_comment l then start_level P r else heading_level P (toks l) | [] => None end.
Definition section_start (P : params) (ls : list iline) (m : meta) : option nat := if is_discrete m then None else start_level P ls.

(** chunk.rs:14-42: the context of a paragraph and its lines *)
Definition paragraph_context (m : meta) (ls : list iline) : context * list iline :=
  let (uniform, ls) := match trim_uniform ls with Some x => (true, x) | None => (false, ls) end in
  match block_style CParagraph m with
  | Some c => (c, ls)
  | None =>
      let plain := (if uniform || match ls with l :: _ => current_is Whitespace (toks l) && (1 <? length (toks l)) | [] => false end then CLiteral else CParagraph, ls) in
      match ls with
      | l :: r => if starts_with_seq [Kind Word; Kind Colon; Kind Whitespace] (toks l) then
                    match toks l with
                    | t :: _ => match admonition (tx t) with Some c => (c, InlineModel.restore (adv l (skipn 3 (toks l))) r) | None => plain end
                    | [] => plain
                    end
                  else plain
      | [] => plain
      end
  end.

(** ** Blocks. The functions call each other, so each gets [rec], the parser with less fuel. What may be called: *)
Record peeked_section := Peeked { ps_meta : meta; ps_lines : list iline; semantic : nat; authored : nat }.
Inductive content := Blocks (bs : list blk) | Sections (preamble : list blk) (ss : list sect) | Parts (preamble : list blk) (opening : list sect) (parts : list (meta * list inode * list blk * list sect)) (closing : list sect).
Inductive call : Set -> Type :=
| Block : call (option blk)                                                     (* parse_block *)
| BlockLoop : call (list blk)                                                   (* while let Some(block) = parse_block *)
| ItemLoop (m : LS.marker) : call (list item)                                   (* while let Some(item) = parse_list_item *)
| Continuations : call (list blk)                                               (* parse_list_continuation_blocks *)
| ExtraTerms (m : LS.marker) : call (list (list inode))                         (* gather_extra_terms *)
| Peek : call (option peeked_section)                                           (* peek_section *)
| SectionLoop : call (list sect)                                                (* while let Some(section) = parse_section *)
| SpecialLoop : call (list sect)                                                (* while let Some(special) = parse_special_sect *)
| PartLoop : call (list (meta * list inode * list blk * list sect))             (* while let Some(part) = parse_book_part *)
| Book : call (option content).                                                 (* parse_book *)
Definition parser := forall A, call A -> pst -> out A.

Section Step.
Variables (P : params) (rec : parser).
Definition one_more {A : Set} (loop : call (list A)) (x : option A) (s : pst) : out (list A) :=
  match x with Some a => take (r, s) := rec _ loop s in Yes (a :: r) s | None => Yes [] s end.

(** parse_block.rs:423-452 *)
Definition paragraph (ls : list iline) (m : meta) (s : pst) : out (option blk) :=
  let ls := if simple_desc_def s then match ls with l :: r => discard_leading l :: r | [] => [] end else ls in
  let (c, ls) := paragraph_context m ls in
  let old := subs_of (ist s) in
  take (x, s) := inlines P ls (set_ist_subs (subs_for P c m old) s) in
  let s := set_ist_subs old s in
  match fst x with
  | [] => take (_, s) := restore_lines P (snd x) s in Yes None (one_empty s)
  | ns => take (_, s) := restore_lines P (snd x) s in Yes (Some (BParagraph m c (match c with CComment => [] | _ => ns end))) s
  end.

(** parse_block.rs:454-511. [Panics]: the attribution has no tokens, the first line is a lone quote, ...; [tl], [removelast]: the quotes; the lines that the quote leaves are not put back. *)
Fixpoint split_comma (l : list tok) : list tok * list tok :=
  match l with
  | [] => ([], [])
  | t :: r => if is_k Comma t then ([], match r with w :: m => if is_k Whitespace w then m else r | [] => [] end) else let (a, c) := split_comma r in (t :: a, c)
  end.
Definition on_last (f : iline -> iline) (ls : list iline) : list iline := match rev ls with l :: r => rev (f l :: r) | [] => [] end.
Definition quoted (ls : list iline) (m : meta) (s : pst) : out (option blk) :=
  match rev ls with
  | [] => Panics
  | last :: front =>
      match toks last with
      | d :: w :: r =>
          if is_k Dashes d && is_k Whitespace w then
            let (attr, cite) := split_comma r in
            take (a, s) := inlines P [new_line attr] s in
            take (c, s) := match cite with [] => Yes None s | _ => take (x, s) := inlines P [new_line cite] s in Yes (Some (fst x)) s end in
            let ls := rev front in
            let quote (ls : list iline) := take (q, s) := inlines P ls s in Yes (Some (BQuoted m (fst q) (fst a) c)) s in
            match ls with
            | [] => Panics
            | l :: more =>
                match toks l with
                | [] => Panics
                | t :: u => if inmd s then quote ls
                            else if is_k DoubleQuote t then
                              let ls := adv l u :: more in
                              if dbg (p_env P) && match rev ls with x :: _ => negb (at_k DoubleQuote (last_token (toks x))) | [] => true end then Panics
                              else quote (on_last (fun x => adv x (removelast (toks x))) ls)
                            else Panics
                end
            end
          else Panics
      | _ => Panics
      end
  end.

(** parse_block.rs:512-528 and, for macros, 529-598 and parse_image_block.rs:6-28: a block of one line; the target and the attributes of the macro are not looked at *)
Definition of_line (f : list tok -> blk) (ls : list iline) (s : pst) : out (option blk) :=
  match ls with l :: r => take (_, s) := restore_lines P r s in Yes (Some (f (toks l))) s | [] => Panics end.
(** parse_block.rs:567-605: a block macro of a plugin; the lines after it are not put back *)
Definition plugin_macro (ls : list iline) (m : meta) (s : pst) : out (option blk) := match ls with l :: _ => Yes (Some (BMacro m (toks l))) s | [] => Panics end.
(** parse_block.rs:191-212. [Panics]: a heading of hashes *)
Definition discrete_heading (ls : list iline) (m : meta) (s : pst) : out (option blk) :=
  match ls with
  | l :: r => match toks l with
              | t :: w :: x => if is_k EqualSigns t && is_k Whitespace w then
                                 take (h, s) := inlines P [adv l x] s in take (_, s) := restore_lines P r s in Yes (Some (BDiscrete m (fst h))) s
                               else Panics
              | _ => Panics
              end
  | [] => Panics
  end.

(** table/parse_table.rs:16, 95, 354-399: the lines of a table; comments are dropped *)
Definition src_eq (x y : list tok) : bool := (length x =? length y) && forallb (fun p => bytes_eqb (tx (fst p)) (tx (snd p))) (combine x y).
Fixpoint table_lines (d : list tok) (ls : list iline) : list (list tok) * option (list iline) :=
  match ls with
  | [] => ([], None)
  | l :: r => if src_eq (toks l) d then ([], Some r) else let (x, e) := table_lines d r in (if is_comment l then x else toks l :: x, e)
  end.
Fixpoint table_src (d : list tok) (ls : list (list tok)) : list (list tok) * bool * list (list tok) :=
  match ls with
  | [] => ([], false, [])
  | l :: r => if negb (is_comment (line_of l)) && src_eq l d then ([], true, r)
              else let '(x, e, m) := table_src d r in (if is_comment (line_of l) then x else l :: x, e, m)
  end.
Definition table (ls : list iline) (m : meta) (s : pst) : out (option blk) :=
  match ls with
  | [] => Panics
  | l :: r =>
      match table_lines (toks l) r with
      | (x, Some rest) => take (_, s) := restore_lines P rest s in Yes (Some (BTable m (toks l) x true)) s
      | (x, None) =>
          let '(y, closed, rest) := table_src (toks l) (src s) in
          let s := with_src rest s in
          Yes (Some (BTable m (toks l) (x ++ y) closed)) (if closed then s else problem_at TableNeverClosed s)
      end
  end.

(** parse_block.rs:239-293: [cur]: the paragraph being gathered *)
Fixpoint quote_paragraphs (ls : list iline) (cur : list iline) : list (list iline) :=
  match ls with
  | [] => match cur with [] => [] | _ => [cur] end
  | l :: r =>
      let l := match toks l with
               | g :: x => if is_k GreaterThan g then
                             let x := match x with w :: y => if is_k Whitespace w then y else x | [] => x end in
                             ILine x (orig l - (length (toks l) - length x)) (passm l) (pluses l)
                           else l
               | [] => l
               end in
      match toks l with
      | [] => match cur with [] => quote_paragraphs r [] | _ => cur :: quote_paragraphs r [] end
      | _ => quote_paragraphs r (cur ++ [l])
      end
  end.
Fixpoint each_paragraph (ps : list (list iline)) (s : pst) : out (list blk) :=
  match ps with
  | [] => Yes [] s
  | p :: r => take (_, s) := restore_lines P p s in
              take (b, s) := rec _ Block s in
              take (bs, s) := each_paragraph r s in Yes (match b with Some x => x :: bs | None => bs end) s
  end.
Definition markdown_quote (ls : list iline) (m : meta) (s : pst) : out (option blk) :=
  match peeked s with
  | _ :: _ => Panics
  | [] => take (bs, s) := each_paragraph (quote_paragraphs ls []) (with_inmd true s) in
          Yes (Some (match bs with [BQuoted _ _ _ _ as q] => q | _ => BMarkdown m bs end)) (with_inmd false s)
  end.

(** parse_block.rs:294-421. A fence with only white space behind it panics (line.rs:610). *)
Definition fence (d : delimiter) (r : list tok) : outcome unit :=
  if match r with [] => false | _ => true end && (dlen d =? 3) && dkind_beq (dk d) DListing then
    match trim_front r with [] => Panic | _ => Ret tt end
  else Ret tt.
Definition verbatim_context (c : context) : bool := match c with CListing | CLiteral | CPassthrough | CComment | CVerse => true | _ => false end.
Definition delimited (ls : list iline) (m : meta) (s : pst) : out (option blk) :=
  match ls with
  | [] => Panics
  | l :: r =>
      match toks l with
      | [] => Panics
      | t :: after =>
          match to_delimiter t with
          | None => Panics
          | Some d =>
              match fence d after with
              | Panic => Panics
              | Ret _ =>
                  let prev := delim s in
                  take (_, s) := restore_lines P r (with_delim (Some d) s) in
                  let c := match block_style (context_of (dk d)) m with Some c => c | None => context_of (dk d) end in
                  let old := subs_of (ist s) in
                  let s := set_ist_subs (subs_for P c m old) s in
                  take (x, s) :=
                    if verbatim_context c then
                      let (vs, s) := read_until d s in
                      let s := match c with CListing | CLiteral => match named_at $"line-comment" m with Some x => with_cmt (Some x) s | None => s end | _ => s end in
                      match c with
                      | CComment => take (_, s) := restore_lines P (drop_until (fun l => is_delimiter d (toks l)) vs) s in Yes (Hidden vs) s
                      | _ => take (x, s) := inlines P vs (with_nests false s) in
                             take (_, s) := restore_lines P (snd x) (with_cmt None (with_nests true s)) in Yes (Simple (fst x)) s
                      end
                    else take (bs, s) := rec _ BlockLoop s in Yes (Compound bs) s in
                  let s := set_ist_subs old s in
                  let (es, s) := read_lines s in
                  match es with
                  | e :: more =>
                      if match delim s with Some d => is_delimiter d (toks e) | None => false end then
                        take (_, s) := restore_lines P more s in Yes (Some (BDelimited m c t x true)) (with_delim prev s)
                      else (* the lines read are lost *) Yes (Some (BDelimited m c t x false)) (with_delim prev (problem_at NeverClosed s))
                  | [] => Yes (Some (BDelimited m c t x false)) (with_delim prev (problem_at NeverClosed s))
                  end
              end
          end
      end
  end.

(** ** Lists *)
(** parse_list.rs:5-51 *)
Definition a_list (ls : list iline) (m : option meta) (s : pst) : out blk :=
  match ls with
  | [] => Panics
  | l :: r =>
      match list_marker l with
      | None => Panics
      | Some mk =>
          take (_, s) := restore_lines P (InlineModel.restore l r) s in
          let s := with_stk (mk :: stk s) s in
          let unordered := match mk with LS.Star _ | LS.Dash => true | _ => false end in
          let s := if unordered && (match bib s with InSection => true | _ => false end || match m with Some m => has_positional $"bibliography" m | None => false end) then with_bib InList s else s in
          take (items, s) := rec _ (ItemLoop mk) s in
          let s := match bib s with InList => with_bib InSection s | _ => s end in
          Yes (BList m mk items) (with_stk (tl (stk s)) s)
      end
  end.
(** line.rs:876-895 *)
Definition checklist (l : list tok) : option (bool * list tok) :=
  match l with
  | o :: x :: c :: w :: r =>
      if is_k OpenBracket o && is_k CloseBracket c && is_k Whitespace w then
        if is_k Star x then Some (true, w :: r) else if is_k Whitespace x then Some (false, w :: r) else if is_k Word x && bytes_eqb (tx x) $"x" then Some (true, w :: r) else None
      else None
  | _ => None
  end.
(** parse_list.rs:101-114: the lines of the text of an item *)
Fixpoint principle_lines (ls : list iline) : list iline * list iline :=
  match ls with
  | l :: r => if continues_principle l then let (a, b) := principle_lines r in (discard_leading l :: a, b) else ([], ls)
  | [] => ([], [])
  end.
(** parse_list.rs:128-168 *)
Definition item_blocks (ls : list iline) (s : pst) : out (list blk) :=
  if starts_nested (stk s) true ls then
    take (_, s) := restore_lines P ls s in take (b, s) := rec _ Block s in Yes (match b with Some x => [x] | None => [] end) s
  else if starts_continuation ls then take (_, s) := restore_lines P ls s in rec _ Continuations s
  else match ls with
       | _ :: _ => take (_, s) := restore_lines P ls s in Yes [] s
       | [] => let (ls, s) := read_lines s in
               match ls with
               | [] => Yes [] s
               | _ => if starts_nested (stk s) false ls then take (b, s) := a_list ls None s in Yes [b] s
                      else take (_, s) := restore_lines P ls s in Yes [] s
               end
       end.
(** parse_list.rs:170-208 *)
Definition continuations (s : pst) : out (list blk) :=
  let (ls, s) := read_lines s in
  match ls with
  | [] => Yes [] s
  | l :: r =>
      if starts_nested (stk s) false ls then take (b, s) := a_list ls None s in Yes [b] s
      else if negb (starts_continuation ls) then take (_, s) := restore_lines P ls s in Yes [] s
      else if match r with n :: _ => match list_marker n with Some k => LS.continues_current_list (stk s) k | None => false end | [] => false end then
        take (_, s) := restore_lines P r (problem_at Dangling s) in Yes [] s
      else
        take (_, s) := restore_lines P r s in
        take (b, s) := rec _ Block (with_conts true s) in
        take (bs, s) := rec _ Continuations (with_conts false s) in
        Yes (match b with Some x => x :: bs | None => bs end) s
  end.
(** line.rs:897-903, parse_list.rs:241-255: the term and the rest of the line. [Panics]: there is no delimiter or nothing before it *)
Fixpoint before_term (acc : iline) (l : list tok) : option (iline * list tok) :=
  match l with t :: r => if is_k TermDelimiter t then Some (acc, r) else before_term (push_tok acc t) r | [] => None end.
Definition desc_term (l : iline) (s : pst) : out (list inode * iline) :=
  match before_term (new_line []) (toks l) with
  | None => Panics
  | Some (b, r) => take (x, s) := inlines P [b] s in Yes (fst x, trim_leading (adv l r)) s
  end.
(** parse_list.rs:257-277 *)
Definition extra_terms (mk : LS.marker) (s : pst) : out (list (list inode)) :=
  let (ls, s) := read_lines s in
  match ls with
  | [] => Yes [] s
  | _ => if starts_extra mk ls then
           match drop_comments ls with
           | [] => Panics
           | l :: r => take (x, s) := desc_term l s in
                       take (_, s) := restore_lines P (InlineModel.restore (snd x) r) s in
                       take (ts, s) := rec _ (ExtraTerms mk) s in Yes (fst x :: ts) s
           end
         else take (_, s) := restore_lines P ls s in Yes [] s
  end.
(** parse_list.rs:279-298 *)
Definition desc_blocks (s : pst) : out (list blk) :=
  let (ls, s) := read_lines s in
  match ls with
  | [] => Yes [] s
  | _ => take (_, s) := restore_lines P ls s in
         if starts_continuation ls then rec _ Continuations s
         else if starts_nested (stk s) true ls then take (b, s) := rec _ Block s in Yes (match b with Some x => [x] | None => [] end) s
         else Yes [] s
  end.
(** parse_list.rs:210-239 *)
Definition desc_item (mk : LS.marker) (l : iline) (r : list iline) (s : pst) : out item :=
  take (x, s) := desc_term l s in
  take (more, s) := match toks (snd x) with
                    | [] => take (_, s) := restore_lines P r s in rec _ (ExtraTerms mk) s
                    | _ => take (_, s) := restore_lines P (InlineModel.restore (snd x) r) s in Yes [] s
                    end in
  take (d, s) := rec _ Block s in
  take (bs, s) := desc_blocks s in
  Yes (DItem mk (fst x) more (match d with Some (BComment | BDelimited _ CComment _ _ _ | BParagraph _ CComment _) => None | _ => d end) bs) s.
(** parse_list.rs:53-126. [first]: the marker of the list. What the inline parser leaves of the text of the item is not put back. *)
Definition list_item (first : LS.marker) (s : pst) : out (option item) :=
  let (ls, s) := read_lines s in
  match ls with
  | [] => Yes None s
  | l :: r =>
      let back := take (_, s) := restore_lines P ls s in Yes None s in
      match list_marker l with
      | None => back
      | Some mk =>
          if negb (LS.continues_current_list (stk s) mk) then back
          else
            let l := trim_leading l in
            if is_description first then take (i, s) := desc_item mk l r s in Yes (Some i) s
            else
              match consume_until Whitespace (toks l) with
              | Panic => Panics
              | Ret (_, rest) =>
                  match discard_assert Whitespace rest with
                  | Panic => Panics
                  | Ret rest =>
                      let (check, rest) := match first with
                                           | LS.Star _ | LS.Dash => match checklist rest with Some (b, m) => (Some b, m) | None => (None, rest) end
                                           | _ => (None, rest)
                                           end in
                      let (more, r) := principle_lines r in
                      take (x, s) := inlines P (InlineModel.restore (adv l rest) more) s in
                      take (bs, s) := item_blocks r s in
                      Yes (Some (Item mk check (fst x) bs)) s
                  end
              end
      end
  end.

(** ** Sections *)
(** parse_section.rs:22-57 *)
Definition peek_section (s : pst) : out (option peeked_section) :=
  let (ls, s) := read_lines s in
  match ls with
  | [] => Yes None s
  | _ =>
      match drop_comments ls with
      | [] => rec _ Peek s
      | ls =>
          take (x, s) := chunk_meta P ls s in
          match snd x with
          | [] => take (_, s) := restore_meta P (fst x) (if meta_empty (fst x) then s else problem_at Unattached s) in Yes None s
          | l :: _ => match heading_level P (toks l) with
                      | None => take (_, s) := restore_peeked P (snd x) (fst x) s in Yes None s
                      | Some n => Yes (Some (Peeked (fst x) (snd x) n n)) s
                      end
          end
      end
  end.
(** parse_section.rs:75-88: a heading without its mark *)
Definition heading_text (l : iline) : outcome iline :=
  match toks l with
  | [] => Panic
  | t :: r => let r := if is_k EqualSigns t then r else skipn (hashes r) r in
              match discard_assert Whitespace r with Ret m => Ret (adv l m) | Panic => Panic end
  end.
(** parse_section.rs:59-161 *)
Definition peeked_to_section (p : peeked_section) (s : pst) : out sect :=
  match ps_lines p with
  | [] => Panics
  | l :: r =>
      match heading_text l with
      | Panic => Panics
      | Ret h =>
          let last := level s in
          let s := with_level (semantic p) s in
          let s := if (last <? semantic p) && (1 <? semantic p - last) then problem_at OutOfSequence s else s in
          take (x, s) := inlines P [h] s in
          let s := match positional_at 0 (ps_meta p) with Some y => if bytes_eqb y $"bibliography" then with_bib InSection s else s | None => s end in
          take (_, s) := restore_lines P r s in
          take (bs, s) := rec _ BlockLoop s in
          Yes (Sect (ps_meta p) (semantic p) (fst x) bs) (with_level last (with_bib NoBib s))
      end
  end.
(** parse_section.rs:4-20 *)
Definition section (s : pst) : out (option sect) :=
  take (p, s) := rec _ Peek s in
  match p with
  | None => Yes None s
  | Some p => if semantic p =? 0 then
                if book P then take (_, s) := restore_peeked P (ps_lines p) (ps_meta p) s in Yes None s
                else take (x, s) := peeked_to_section p (problem_at LevelZero s) in Yes (Some x) s
              else take (x, s) := peeked_to_section p s in Yes (Some x) s
  end.

(** ** A block — parse_block.rs:6-189 *)
(** parse_block.rs:217-237: a comment and nothing else; else the lines after leading comments *)
Definition comment_block (ls : list iline) : option (list iline) :=
  match ls with
  | l :: r => if is_comment l then match drop_empty (drop_comments r) with [] => None | m => Some m end else Some ls
  | [] => Some []
  end.
Definition thematic (l : list tok) : bool :=
  let n := before_trailing_ws l in
  (n =? 3) && (starts_with_seq [Kind SingleQuote; Kind SingleQuote; Kind SingleQuote] l || starts_with_seq [Kind Star; Kind Star; Kind Star] l)
  || (n =? 1) && match l with t :: _ => is_k Dashes t && len_is 3 t | [] => false end
  || (n =? 5) && (starts_with_seq [Len 1 Dashes; Len 1 Whitespace; Len 1 Dashes; Len 1 Whitespace; Len 1 Dashes] l
                  || starts_with_seq [Kind Star; Len 1 Whitespace; Kind Star; Len 1 Whitespace; Kind Star] l)
  || (n =? 3) && starts_with_seq [Kind LessThan; Kind LessThan; Kind LessThan] l.
(** parse_block.rs:52-188: a group of lines that starts no section *)
Definition chunk (ls : list iline) (m : meta) (s : pst) : out (option blk) :=
  match ls with
  | [] => Panics
  | l :: r =>
      match toks l with
      | [] => Panics
      | t :: ts =>
          if is_block_macro (toks l) then
            if existsb (bytes_eqb (tx t)) [$"image:"; $"toc:"; $"audio:"; $"video:"] then of_line (BMacro m) ls s else plugin_macro ls m s
          else if starts_list ls then take (b, s) := a_list ls (Some m) s in Yes (Some b) s
          else if is_some (unadjusted_level (toks l)) && is_discrete m then discrete_heading ls m s
          else if is_k DelimiterLine t then
            if match delim s with Some d => is_delim d (to_delimiter t) | None => false end then take (_, s) := restore_lines P ls s in Yes None s
            else delimited ls m s
          else if LineModel.one_of [Pipe; Colon; Bang; Comma] t && match ts with [e] => is_k EqualSigns e && (2 <? length (tx e)) | _ => false end then table ls m s
          else if is_k GreaterThan t && current_is Whitespace ts then markdown_quote ls m s
          else if is_k AttrDef t then take (_, s) := restore_lines P r s in Yes (Some (BAttr m t)) s
          else if LineModel.one_of [SingleQuote; Star; Dashes; LessThan] t && thematic (toks l) then of_line (BBreak m) ls s
          else if is_quoted (inmd s) ls then quoted ls m s
          else paragraph ls m s
      end
  end.
Definition block (s : pst) : out (option blk) :=
  let (ls, s) := read_lines s in
  match ls with
  | [] => Yes None s
  | _ =>
      match comment_block ls with
      | None => match pmeta s with
                | Some m => if meta_empty m then Yes (Some BComment) (with_pmeta None s) else Panics
                | None => Yes (Some BComment) s
                end
      | Some ls =>
          take (x, s) := chunk_meta P ls s in
          match snd x with
          | [] => rec _ Block (problem_at Unattached s)
          | _ =>
              match section_start P (snd x) (fst x) with
              | Some n =>
                  if (n <? 2) && is_some (delim s) then chunk (snd x) (fst x) s
                  else
                    take (_, s) := restore_peeked P (snd x) (fst x) s in
                    if (n <? 2) || (n <=? level s) then Yes None s
                    else take (y, s) := section s in match y with Some z => Yes (Some (BSection z)) s | None => Panics end
              | None => chunk (snd x) (fst x) s
              end
          end
      end
  end.

(** ** Documents *)
(** parser.rs:286-297 *)
Definition sectioned (s : pst) : out (list blk * list sect) :=
  take (bs, s) := rec _ BlockLoop s in take (ss, s) := rec _ SectionLoop s in Yes (bs, ss) s.
(** parse_book.rs:81-95 *)
Definition special (p : peeked_section) : bool := match positional_at 0 (ps_meta p) with Some x => special_name P x | None => false end.
Definition special_sect (s : pst) : out (option sect) :=
  take (p, s) := rec _ Peek s in
  match p with
  | None => Yes None s
  | Some p => if special p then take (x, s) := peeked_to_section (Peeked (ps_meta p) (ps_lines p) 1 (authored p)) s in Yes (Some x) s
              else take (_, s) := restore_peeked P (ps_lines p) (ps_meta p) s in Yes None s
  end.
(** parse_book_part.rs:6-84: the lines after the title in its group are not put back; an open block around the intro and the title of the intro are left as they are *)
Definition book_part (s : pst) : out (option (meta * list inode * list blk * list sect)) :=
  take (p, s) := rec _ Peek s in
  match p with
  | None => Yes None s
  | Some p =>
      if negb (authored p =? 0) || special p then take (_, s) := restore_peeked P (ps_lines p) (ps_meta p) s in Yes None s
      else match ps_lines p with
           | [] => Panics
           | l :: _ => match toks l with
                       | [] => Panics
                       | _ :: r => match discard_assert Whitespace r with
                                   | Panic => Panics
                                   | Ret r => take (h, s) := inlines P [adv l r] s in
                                              take (x, s) := sectioned s in
                                              Yes (Some (ps_meta p, fst h, fst x, snd x)) (match snd x with [] => problem_at EmptyPart s | _ => s end)
                                   end
                       end
           end
  end.
(** parse_book.rs:4-79. [src s = []]: the lexer is at the end (blank lines and what is peeked do not count, blank lines at the end of the source do) *)
Definition at_end (s : pst) : bool := match src s with [] => true | _ => false end.
Definition parse_book (s : pst) : out (option content) :=
  if negb (book P) then Yes None s
  else
    take (opening, s) := rec _ SpecialLoop s in
    if at_end s && match opening with [] => false | _ => true end then Yes (Some (Sections [] opening)) s
    else
      take (p, s) := book_part s in
      match p with
      | Some p => take (ps, s) := rec _ PartLoop s in take (closing, s) := rec _ SpecialLoop s in Yes (Some (Parts [] opening (p :: ps) closing)) s
      | None =>
          take (k, s) := rec _ Peek s in
          match k with
          | Some k => take (_, s) := restore_peeked P (ps_lines k) (ps_meta k) s in take (x, s) := sectioned s in Yes (Some (Sections (fst x) (opening ++ snd x))) s
          | None =>
              take (bs, s) := rec _ BlockLoop s in
              if at_end s then Yes (Some (Blocks bs)) s
              else take (c, s) := rec _ Book s in
                   match c with
                   | None => Yes (Some (Blocks bs)) s
                   | Some (Sections pre ss) => Yes (Some (Sections (bs ++ pre) ss)) s
                   | Some (Blocks _) => Panics
                   | Some (Parts pre o ps cl) => Yes (Some (Parts (bs ++ pre) o ps cl)) s
                   end
          end
      end.

Definition step (A : Set) (c : call A) (s : pst) : out A :=
  match c in call T return out T with
  | Block => block s
  | BlockLoop => take (b, s) := rec _ Block s in one_more BlockLoop b s
  | ItemLoop m => take (i, s) := list_item m s in one_more (ItemLoop m) i s
  | Continuations => continuations s
  | ExtraTerms m => extra_terms m s
  | Peek => peek_section s
  | SectionLoop => take (x, s) := section s in one_more SectionLoop x s
  | SpecialLoop => take (x, s) := special_sect s in one_more SpecialLoop x s
  | PartLoop => take (x, s) := book_part s in one_more PartLoop x s
  | Book => parse_book s
  end.
End Step.

(** [More]: out of fuel *)
Fixpoint run (fuel : nat) (P : params) : parser := match fuel with O => fun _ _ _ => More | S f => step P (run f P) end.
(** parser.rs:262-272: a document after its header *)
Definition document (fuel : nat) (P : params) (s : pst) : out content :=
  take (b, s) := run fuel P _ Book s in
  match b with
  | Some c => Yes c s
  | None => take (x, s) := sectioned (run fuel P) s in Yes (Sections (fst x) (snd x)) s
  end.
