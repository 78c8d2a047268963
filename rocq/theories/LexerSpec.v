(** What the tokens of a text are supposed to look like, stated without the lexer's functions. *)
From Verif Require Import Base Utf8 LexerModel.

(** [contiguous from to ts]: the tokens' locations follow each other without gap or overlap. *)
Fixpoint contiguous (from to : nat) (ts : list token) : Prop :=
  match ts with
  | [] => from = to
  | t :: r => t_start t = from /\ from < t_end t /\ contiguous (t_end t) to r
  end.

Definition all_of (P : ascii -> bool) (s : bytes) : Prop := Forall (fun c => P c = true) s.
Definition in_list (l : bytes) (c : ascii) : bool := existsb (Ascii.eqb c) l.
Definition is_digit (c : ascii) : bool := between 48 57 c.
Definition is_alpha (c : ascii) : bool := between 65 90 c || between 97 122 c.
Definition is_alnum (c : ascii) : bool := is_alpha c || is_digit c.
Definition is_hex (c : ascii) : bool := is_digit c || between 65 70 c || between 97 102 c.
Definition name_byte (c : ascii) : bool := is_alnum c || in_list ["-"%char; "_"%char] c.
Definition quote : ascii := ascii_of_nat 34.
Definition newline : ascii := ascii_of_nat 10.
Definition return_ : ascii := ascii_of_nat 13.
Definition escape : ascii := ascii_of_nat 27.
(** bytes that end a word *)
Definition separators : bytes :=
  map ascii_of_nat [9; 10; 11; 12; 13; 27] ++ $" :;<>,^_~*!?`+.[]{}()=|'\%#&-" ++ [quote].
(** bytes a word cannot begin with *)
Definition not_word_start : bytes :=
  map ascii_of_nat [9; 10; 11; 12] ++ $" :;<>,^_~*!?`+.[]{}()=|'\%#&-/0123456789" ++ [quote].

(** Which texts a token of each kind can have. *)
Inductive lexeme_of (plugins : list bytes) : kind -> bytes -> Prop :=
| L_one c k : In (c, k)
    [(">"%char, GreaterThan); (","%char, Comma); ("^"%char, Caret); ("~"%char, Tilde); ("_"%char, Underscore);
     ("*"%char, Star); ("!"%char, Bang); ("?"%char, QuestionMark); ("`"%char, Backtick); ("+"%char, Plus);
     ("["%char, OpenBracket); ("]"%char, CloseBracket); ("{"%char, OpenBrace); ("}"%char, CloseBrace); ("#"%char, Hash);
     ("%"%char, Percent); (quote, DoubleQuote); ("|"%char, Pipe); ("'"%char, SingleQuote); ("\"%char, Backslash);
     ("&"%char, Ampersand); ("<"%char, LessThan); (":"%char, Colon); (";"%char, SemiColon)] -> lexeme_of plugins k [c]
| L_newline s : In s [[newline]; [return_; newline]] -> lexeme_of plugins Newline s
| L_repeated c k n : In (c, k)
    [("="%char, EqualSigns); ("-"%char, Dashes); ("."%char, Dots); ("/"%char, ForwardSlashes); ("("%char, OpenParens);
     (")"%char, CloseParens)] -> lexeme_of plugins k (repeat c (S n))
| L_blank s : s <> [] -> all_of (in_list (map ascii_of_nat [32; 9; 11; 12])) s -> lexeme_of plugins Whitespace s
| L_digits s : s <> [] -> all_of is_digit s -> lexeme_of plugins Digits s
| L_entity s : (s <> [] /\ all_of is_digit s) \/ (exists h, s = $"x" ++ h /\ h <> [] /\ all_of is_hex h) ->
    lexeme_of plugins Entity ($"&#" ++ s ++ $";")
| L_named_entity a c s : is_alpha a = true -> is_alnum c = true -> all_of is_alnum s ->
    lexeme_of plugins Entity ($"&" ++ a :: c :: s ++ $";")
| L_attr_ref s : s <> [] -> all_of name_byte s -> lexeme_of plugins AttrRef ($"{" ++ s ++ $"}")
| L_callout s : s = $"." \/ (s <> [] /\ all_of is_digit s) -> lexeme_of plugins CalloutNumber ($"<" ++ s ++ $">")
| L_callout_xml s : s = $"." \/ (s <> [] /\ all_of is_digit s) ->
    lexeme_of plugins CalloutNumber ($"<!--" ++ s ++ $"-->")
| L_term s : In s [$"::"; $":::"; $"::::"; $";;"] -> lexeme_of plugins TermDelimiter s
| L_delimiter s : In s [$"--"; $"```"; $"****"; $"____"; $"----"; $"++++"; $"...."; $"////"] -> lexeme_of plugins DelimiterLine s
| L_delimiter_example n : lexeme_of plugins DelimiterLine ($"====" ++ repeat "="%char n)
| L_punctuation s : In s (map (map ascii_of_nat)
    [[194;160]; [226;128;175]; [226;128;135]; [226;128;152]; [226;128;153]; [226;128;156]; [226;128;157]; [226;129;160];
     [227;128;128]; [239;187;191]]) -> lexeme_of plugins Punctuation s
| L_pass : lexeme_of plugins AttrPassDbl (escape :: $"ass:")
| L_directive s : In s [$"include"; $"ifdef"; $"ifndef"; $"endif"; $"ifeval"; $"asciidorkinclude"] ->
    lexeme_of plugins Directive (s ++ $"::")
| L_uri s : In s [$"http://"; $"https://"; $"ftp://"; $"mailto://"; $"irc://"; $"file:///"] -> lexeme_of plugins UriScheme s
| L_macro s : In s plugins \/ In s [$"footnote"; $"image"; $"indexterm"; $"indexterm2"; $"anchor"; $"audio"; $"icon"; $"kbd";
      $"link"; $"pass"; $"btn"; $"menu"; $"mailto"; $"toc"; $"xref"; $"video"] ->
    lexeme_of plugins MacroName (s ++ $":")
| L_email c s d : ~ In c not_word_start -> (forall x, In x s -> ~ In x ("@"%char :: separators)) ->
    3 < length d -> In "."%char d -> all_of (fun x => name_byte x || in_list ["."%char] x) d ->
    lexeme_of plugins MaybeEmail (c :: s ++ $"@" ++ d)
| L_word c s : ~ In c not_word_start -> (forall x, In x s -> ~ In x separators) -> lexeme_of plugins Word (c :: s).

(** Where a token may stand: the byte before it ([None] at the beginning) and the text behind it. *)
Definition line_begins (prev : option ascii) : Prop := prev = None \/ prev = Some newline.
Definition ends_line (after : bytes) : Prop := after = [] \/ exists c r, after = c :: r /\ In c [newline; return_].
Definition blank_follows (after : bytes) : Prop :=
  after = [] \/ exists c r, after = c :: r /\ In c ((" "%char) :: map ascii_of_nat [9; 10; 13]).
Definition not_continued_by (P : ascii -> bool) (after : bytes) : Prop := forall c r, after = c :: r -> P c = false.
Definition placed (k : kind) (prev : option ascii) (lexeme after : bytes) : Prop :=
  match k with
  | DelimiterLine => line_begins prev /\ (ends_line after \/ (lexeme = $"```" /\ not_continued_by (Ascii.eqb "`"%char) after))
  | TermDelimiter => ~ line_begins prev /\ blank_follows after
  | AttrRef | Entity => prev <> Some "\"%char
  | Whitespace => not_continued_by (in_list (map ascii_of_nat [32; 9; 11; 12])) after
  | Digits => not_continued_by is_digit after
  | EqualSigns => not_continued_by (Ascii.eqb "="%char) after
  | Dashes => not_continued_by (Ascii.eqb "-"%char) after
  | Dots => not_continued_by (Ascii.eqb "."%char) after
  | ForwardSlashes => not_continued_by (Ascii.eqb "/"%char) after
  | OpenParens => not_continued_by (Ascii.eqb "("%char) after
  | CloseParens => not_continued_by (Ascii.eqb ")"%char) after
  | Directive => exists c r, after = c :: r /\ ~ In c ((" "%char) :: map ascii_of_nat [9; 10; 12; 13])
  | Word => after = [] \/ (exists c r, after = c :: r /\ In c ("@"%char :: separators))
            \/ (exists r, after = $"footnote:" ++ r) \/ (exists r, after = $"indexterm:" ++ r)
  | _ => True
  end.
(** every token of a text is placed well: [before] is what was read already *)
Fixpoint well_placed (before : bytes) (ts : list token) : Prop :=
  match ts with
  | [] => True
  | t :: r =>
      placed (t_kind t) (last (map Some before) None) (t_lexeme t) (concat (map t_lexeme r)) /\
      well_placed (before ++ t_lexeme t) r
  end.
