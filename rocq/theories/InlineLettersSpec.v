(** The letters of a text, in reading order, before and after parsing. *)
From Verif Require Import Base LexerModel InlineModel InlineSpec.

(** Letters are ASCII letters and digits, and every byte of a character beyond ASCII. *)
Definition letter (c : ascii) : bool := alnum c || (127 <? nat_of_ascii c).
Definition letters (x : bytes) : bytes := filter letter x.

(** The letters of what was parsed, those of names of macros and of attributes included. *)
Definition symbol_letters (k : symbol_kind) : bytes := match k with Copyright => $"C" | Trademark => $"TM" | Registered => $"R" | _ => [] end.
Definition opt_letters (o : option bytes) : bytes := match o with Some x => letters x | None => [] end.
Fixpoint node_letters (n : inode) : bytes :=
  let all := flat_map node_letters in
  match n with
  | NText x | NTuck x | NCallout x => letters x
  | NNewline | NSpaces _ | NDiscarded | NLineBreak | NSpecial _ | NDashes _ _ | NCurly _ | NComment _ => []
  | NSymbol k => symbol_letters k
  | NSpan _ None inner => all inner
  | NSpan _ (Some a) inner => alist_letters a ++ all inner
  | NQuote _ inner | NPass inner => all inner
  | NAnchor id text | NBiblio id text => letters id ++ all text
  | NAnchorMacro id a => $"anchor" ++ letters id ++ alist_letters a
  | NFootnote id None => $"footnote" ++ opt_letters id
  | NFootnote id (Some text) => $"footnote" ++ opt_letters id ++ all text
  | NXref target None shorthand => (if shorthand then [] else $"xref") ++ letters target
  | NXref target (Some text) shorthand => (if shorthand then [] else $"xref") ++ letters target ++ all text
  | NLink scheme target None _ => (match scheme with Some _ => [] | None => $"link" end) ++ letters target
  | NLink scheme target (Some a) _ => (match scheme with Some _ => [] | None => $"link" end) ++ letters target ++ alist_letters a
  | NLinkPass target a _ => $"link" ++ all target ++ alist_letters a
  | NMacro name target a => letters name ++ letters target ++ alist_letters a
  | NKeyboard x => $"kbd" ++ letters x
  | NButton x => $"btn" ++ letters x
  | NMenu x y => $"menu" ++ letters x ++ letters y
  | NIndexMacro visible a => (if visible then $"indexterm2" else $"indexterm") ++ alist_letters a
  | NVisible term => all term
  | NConcealed terms => flat_map all terms
  end
with alist_letters (a : alist) : bytes :=
  match a with
  | AList _ src _ => letters src
  | AText text => flat_map node_letters text
  end.
Definition all_letters (ns : list inode) : bytes := flat_map node_letters ns.

(** What the lexer gives: tokens of these kinds have no letters, and a callout number has its letters between two other characters. *)
Definition mute : list kind :=
  [Ampersand; Backtick; Backslash; Caret; CloseBracket; CloseParens; Comma; Dashes; Discard; Dots; DoubleQuote; EqualSigns; GreaterThan; Hash; LessThan; Newline; OpenBracket; OpenParens; Plus; SingleQuote; Star;
   Tilde; Underscore; Whitespace].
Definition lexed (t : tok) : Prop :=
  (one_of mute t = true -> letters (tx t) = []) /\ (tk t = CalloutNumber -> letters (removelast (tl (tx t))) = letters (tx t)).
(** no reference to an attribute, no [//], no stand-in for a passthrough *)
Definition ordinary (t : tok) : Prop := one_of [AttrRef; AttrPassDbl; PreprocPassthru] t = false /\ ~ (tk t = ForwardSlashes /\ length (tx t) = 2).
(** no passthrough *)
Definition passes_nothing (t : tok) : Prop := tk t <> Plus /\ ~ (tk t = MacroName /\ tx t = $"pass:").
(** no macro, link, cross reference or list of attributes, and no backslash *)
Definition calls_nothing (t : tok) : Prop := one_of [MacroName; UriScheme; LessThan; OpenBracket; Backslash] t = false.
(** somewhere a token of kind [a] is followed by one of the kinds [b], double quotes between them not counted *)
Definition follows (a : kind) (b : list kind) (l : list tok) : Prop :=
  exists p x dq y r, l = p ++ x :: dq ++ y :: r /\ tk x = a /\ Forall (fun t => tk t = DoubleQuote) dq /\ one_of b y = true.
(** no backtick comes both after a bracket and before a quote; no anchor has a bracket with a backslash in it *)
Definition calm (l : list tok) : Prop :=
  (~ follows CloseBracket [Backtick] l \/ ~ follows Backtick [SingleQuote; DoubleQuote] l) /\ (~ follows OpenBracket [OpenBracket] l \/ ~ follows Backslash [CloseBracket] l).
(** specifications of stop tokens without letters *)
Definition quiet (s : tspec) : Prop := match s with Kind k | Len _ k => existsb (kind_eqb k) mute = true | _ => False end.
(** the letters of tokens, where a stand-in has those of its passthrough *)
Definition tok_letters (ps : list (list inode * bool)) (t : tok) : bytes :=
  if is_k PreprocPassthru t then match nth_error ps (slot (inf t)) with Some (ns, _) => all_letters ns | None => [] end else letters (tx t).
Definition left_letters (s : st) (ls : list iline) : bytes := flat_map (fun l => flat_map (tok_letters (pass_of s)) (toks l)) ls.
(** The tokens the lexer gives for a text, cut at the ends of lines. *)
Definition read (plugins : list bytes) (x : bytes) : list (list tok) :=
  match tokens plugins (S (length x)) (mkLexer x 0 0) with Ret (Some ts) => cut_lines [] (map (placed x) ts) | _ => [] end.
