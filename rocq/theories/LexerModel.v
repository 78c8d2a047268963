(** Model of one source's lexer (parser/src/lexer/source_lexer.rs) and of the token kinds
    (parser/src/token.rs). Text is bytes; positions are naturals (the code's u32: sources are assumed
    shorter than 4 GiB). *)
From Verif Require Import Base Utf8.

(** parser/src/token.rs:15-68 *)
Inductive kind :=
| Ampersand | AttrDef | AttrPassDbl | AttrRef | Backtick | Backslash | Bang | CalloutNumber | Caret | CloseBrace
| CloseBracket | CloseParens | Colon | Comma | Dashes | DelimiterLine | Digits | Directive | Discard | DoubleQuote
| Dots | Email | Entity | EqualSigns | Eof | ForwardSlashes | GreaterThan | Hash | LessThan | MacroName | MaybeEmail
| Newline | NoBreakSpace | OpenBrace | OpenBracket | OpenParens | Percent | Pipe | Plus | PreprocPassthru | Punctuation
| QuestionMark | SemiColon | SingleQuote | Star | TermDelimiter | Tilde | Underscore | UriScheme | Whitespace | Word.

(** bytes by number *)
Definition ch (n : nat) : ascii := ascii_of_nat n.
Definition LF : ascii := ch 10.
Definition CR : ascii := ch 13.
Definition TAB : ascii := ch 9.
Definition VT : ascii := ch 11.
Definition FF : ascii := ch 12.
Definition ESC : ascii := ch 27.
(** u8::is_ascii_digit, is_ascii_hexdigit, is_ascii_alphabetic, is_ascii_alphanumeric, is_ascii_whitespace *)
Definition digit (c : ascii) : bool := between 48 57 c.
Definition upper (c : ascii) : bool := between 65 90 c.
Definition lower (c : ascii) : bool := between 97 122 c.
Definition hexdigit (c : ascii) : bool := digit c || between 65 70 c || between 97 102 c.
Definition alpha (c : ascii) : bool := upper c || lower c.
Definition alnum (c : ascii) : bool := alpha c || digit c.
Definition mem (c : ascii) (l : bytes) : bool := existsb (Ascii.eqb c) l.
Definition ascii_ws (c : ascii) : bool := mem c [" "%char; TAB; LF; FF; CR].

(** What reading one token decides: kind, start and end of its text and the lexer's new position, all
    relative to the position where reading began. *)
Record raw := mkRaw { r_kind : kind; r_start : nat; r_end : nat; r_pos : nat }.

(** How far a loop "advance while f" gets. source_lexer.rs:419-437 (advance_while, advance_while_one_of,
    advance_while_with) *)
Fixpoint run (f : ascii -> bool) (l : bytes) : nat :=
  match l with
  | c :: r => if f c then S (run f r) else 0
  | [] => 0
  end.

(** source_lexer.rs:306-310; called after the first byte was passed *)
Definition single (k : kind) : raw := mkRaw k 0 1 1.
(** source_lexer.rs:130-134 *)
Definition codepoint (n : nat) (k : kind) : raw :=
  let pos := 1 + (n - 1) in mkRaw k (pos - n) pos pos.
(** source_lexer.rs:312-316; [t] is the text after the first byte *)
Definition repeating (c : ascii) (k : kind) (t : bytes) : raw := let e := 1 + run (Ascii.eqb c) t in mkRaw k 0 e e.
(** source_lexer.rs:300-304 *)
Definition ws_bytes : bytes := [" "%char; TAB; VT; FF].
Definition whitespace (t : bytes) : raw := let e := 1 + run (fun c => mem c ws_bytes) t in mkRaw Whitespace 0 e e.
(** source_lexer.rs:318-322 *)
Definition digits (t : bytes) : raw := let e := 1 + run digit t in mkRaw Digits 0 e e.

(** a byte that ends a word — source_lexer.rs:463-483 *)
Definition boundary_bytes : bytes :=
  [" "%char; TAB; LF; CR; VT; FF; ":"%char; ";"%char; "<"%char; ">"%char; ","%char; "^"%char; "_"%char; "~"%char; "*"%char;
   "!"%char; "?"%char; "`"%char; "+"%char; "."%char; "["%char; "]"%char; "{"%char; "}"%char; "("%char; ")"%char; "="%char;
   "|"%char; ch 34; "'"%char; "\"%char; "%"%char; "#"%char; "&"%char; "-"%char; ESC].
Definition in_word (with_at : bool) (c : ascii) : bool :=
  negb (with_at && Ascii.eqb c "@"%char) && negb (mem c boundary_bytes).

(** parser/src/lexer/root_lexer.rs:61-81 *)
Definition builtin_macros : list bytes :=
  [$"footnote"; $"image"; $"indexterm"; $"indexterm2"; $"anchor"; $"audio"; $"icon"; $"kbd"; $"link"; $"pass"; $"btn";
   $"menu"; $"mailto"; $"toc"; $"xref"; $"video"].
Definition one_of (l : list bytes) (x : bytes) : bool := existsb (bytes_eqb x) l.
(** source_lexer.rs:396-402 *)
Definition is_macro_name (plugins : list bytes) (x : bytes) : bool := one_of builtin_macros x || one_of plugins x.
Definition directives : list bytes :=
  [$"include"; $"ifdef"; $"ifndef"; $"endif"; $"ifeval"; $"asciidorkinclude"].
(** source_lexer.rs:656-666; [t] is the text after the word *)
Definition continues_uri_scheme (x t : bytes) : option nat :=
  if one_of [$"http"; $"https"; $"ftp"; $"mailto"; $"irc"] x && starts_with ($"://") t then Some 3
  else if bytes_eqb x ($"file") && starts_with ($":///") t then Some 4 else None.
Definition blank_or_end (o : option ascii) : bool :=
  match o with None => true | Some c => mem c [" "%char; TAB; LF; CR] end.
Definition is (o : option ascii) (c : ascii) : bool := match o with Some d => Ascii.eqb d c | None => false end.
(** source_lexer.rs:515-531; [t] starts at the first colon *)
Definition peek_term_delimiter (t : bytes) : bool :=
  let p := skipn 1 t in
  is (nth_error p 0) ":"%char &&
  (blank_or_end (nth_error p 1)
   || is (nth_error p 1) ":"%char && blank_or_end (nth_error p 2)
   || is (nth_error p 1) ":"%char && is (nth_error p 2) ":"%char && blank_or_end (nth_error p 3)).
Definition ends_with (s p : bytes) : bool := starts_with (rev p) (rev s).
Definition email_byte (c : ascii) : bool := alnum c || mem c ["."%char; "-"%char; "_"%char].

(** source_lexer.rs:324-378. [r] is the text from the word's first byte. [Panic]: the [unwrap] of
    [peek_n(2)]. *)
Definition word (plugins : list bytes) (r : bytes) : outcome raw :=
  let e := 1 + run (in_word true) (skipn 1 r) in
  let lexeme := firstn e r in
  let t := skipn e r in
  let plain := mkRaw Word 0 e e in
  if is (nth_error t 0) ":"%char && is (nth_error t 1) ":"%char && one_of directives lexeme && (4 <? length t) then
    match nth_error t 2 with
    | None => Panic
    | Some c => Ret (if negb (ascii_ws c) then mkRaw Directive 0 (e + 2) (e + 2) else plain)
    end
  else if is (nth_error t 0) ":"%char && negb (peek_term_delimiter t) then
    match continues_uri_scheme lexeme t with
    | Some n => Ret (mkRaw UriScheme 0 (e + n) (e + n))
    | None =>
        if is_macro_name plugins lexeme then Ret (mkRaw MacroName 0 (e + 1) (e + 1))
        else if ends_with lexeme ($"footnote") then Ret (mkRaw Word 0 (e - 8) (e - 8))
        else if ends_with lexeme ($"indexterm") then Ret (mkRaw Word 0 (e - 9) (e - 9))
        else Ret plain
    end
  else if is (nth_error t 0) "@"%char then
    let after := skipn 1 t in
    let n := run email_byte after in
    let domain := firstn n after in
    if (3 <? n) && mem "."%char domain && negb (is (nth_error after n) "@"%char) then
      Ret (mkRaw MaybeEmail 0 (e + 1 + n) (e + 1 + n))
    else
      let back := e + 1 + n - length domain in
      let e2 := back + run (in_word false) (skipn back r) in
      Ret (mkRaw Word 0 e2 e2)
  else Ret plain.

(** source_lexer.rs:485-513; [t] is the text after the first byte [c] *)
Definition maybe_term_delimiter (c : ascii) (line_start : bool) (t : bytes) : raw :=
  let one := single (if Ascii.eqb c ":"%char then Colon else SemiColon) in
  if line_start || negb (is (nth_error t 0) c) then one
  else if blank_or_end (nth_error t 1) then mkRaw TermDelimiter 0 2 2
  else if Ascii.eqb c ":"%char && is (nth_error t 1) ":"%char then
    let four := is (nth_error t 2) ":"%char in
    let n := if four then 4 else 3 in
    if blank_or_end (nth_error t (if four then 3 else 2)) then mkRaw TermDelimiter 0 n n else one
  else one.

(** source_lexer.rs:536-558; [prev] is the byte before the brace *)
Definition attr_name_byte (c : ascii) : bool := Ascii.eqb c "-"%char || Ascii.eqb c "_"%char || alnum c.
Definition maybe_attr_ref (prev : option ascii) (t : bytes) : raw :=
  if is prev "\"%char then single OpenBrace
  else
    let n := run attr_name_byte t in
    if is (nth_error t n) "}"%char then
      if n =? 0 then single OpenBrace else mkRaw AttrRef 0 (1 + n + 1) (1 + n + 1)
    else single OpenBrace.

(** source_lexer.rs:560-613 *)
Definition maybe_callout_number (t : bytes) : raw :=
  match nth_error t 0 with
  | Some c =>
      if digit c then
        let p := 1 + 1 + run digit (skipn 1 t) in
        if is (nth_error t (p - 1)) ">"%char then mkRaw CalloutNumber 0 (p + 1) (p + 1) else single LessThan
      else if Ascii.eqb c "."%char then
        if is (nth_error t 1) ">"%char then mkRaw CalloutNumber 0 3 3 else single LessThan
      else if Ascii.eqb c "!"%char then
        if is (nth_error t 1) "-"%char && is (nth_error t 2) "-"%char then
          match nth_error t 3 with
          | Some d =>
              if Ascii.eqb d "."%char then
                if is (nth_error t 4) "-"%char && is (nth_error t 5) "-"%char && is (nth_error t 6) ">"%char
                then mkRaw CalloutNumber 0 (1 + 7) (1 + 7) else single LessThan
              else if digit d then
                let n := 1 + run digit (skipn 4 t) in
                if is (nth_error t (3 + n)) "-"%char && is (nth_error t (4 + n)) "-"%char && is (nth_error t (5 + n)) ">"%char
                then mkRaw CalloutNumber 0 (1 + (n + 6)) (1 + (n + 6)) else single LessThan
              else single LessThan
          | None => single LessThan
          end
        else single LessThan
      else single LessThan
  | None => single LessThan
  end.

(** source_lexer.rs:631-646; [t] is the text after the ampersand *)
Definition finish_entity (prev : option ascii) (initial : nat) (f : ascii -> bool) (t : bytes) : raw :=
  let p := initial + run f (skipn initial t) in
  if (initial <? p) && is (nth_error t p) ";"%char then
    if is prev "\"%char then single Ampersand else mkRaw Entity 0 (1 + (p + 1)) (1 + (p + 1))
  else single Ampersand.
(** source_lexer.rs:615-629 *)
Definition maybe_entity (prev : option ascii) (t : bytes) : raw :=
  match nth_error t 0 with
  | Some c =>
      if Ascii.eqb c "#"%char && match nth_error t 1 with Some d => digit d | None => false end then finish_entity prev 1 digit t
      else if Ascii.eqb c "#"%char && is (nth_error t 1) "x"%char then finish_entity prev 2 hexdigit t
      else if alpha c then finish_entity prev 1 alnum t
      else single Ampersand
  | None => single Ampersand
  end.

(** source_lexer.rs:158-201: length of the delimiter line starting here, and its byte *)
Definition line_end (o : option ascii) : bool := match o with None => true | Some c => mem c [LF; CR] end.
Definition at_delimiter_line (line_start : bool) (r : bytes) : option (nat * ascii) :=
  match r with
  | [] => None
  | c :: _ =>
      if negb line_start || negb (mem c ["_"%char; "-"%char; "*"%char; "="%char; "."%char; "+"%char; "/"%char; "`"%char]) then None
      else
        let same n := is (nth_error r n) c in
        if Ascii.eqb c "`"%char && same 1 && same 2 && negb (same 3) then Some (3, c)
        else if Ascii.eqb c "-"%char && same 1 && line_end (nth_error r 2) then Some (2, c)
        else if negb (Ascii.eqb c "`"%char) && same 1 && same 2 && same 3 && line_end (nth_error r 4) then Some (4, c)
        else if Ascii.eqb c "="%char && same 1 && same 2 && same 3 && same 4 then
          let n := 5 + run (Ascii.eqb "="%char) (skipn 5 r) in
          if line_end (nth_error r n) then Some (n, c) else None
        else None
  end.

(** the one-byte tokens of source_lexer.rs:63-95 *)
Definition singles : list (ascii * kind) :=
  [(LF, Newline); (">"%char, GreaterThan); (","%char, Comma); ("^"%char, Caret); ("~"%char, Tilde); ("_"%char, Underscore);
   ("*"%char, Star); ("!"%char, Bang); ("?"%char, QuestionMark); ("`"%char, Backtick); ("+"%char, Plus);
   ("["%char, OpenBracket); ("]"%char, CloseBracket); ("}"%char, CloseBrace); ("#"%char, Hash); ("%"%char, Percent);
   (ch 34, DoubleQuote); ("|"%char, Pipe); ("'"%char, SingleQuote); ("\"%char, Backslash)].
Definition repeats : list (ascii * kind) :=
  [("="%char, EqualSigns); ("-"%char, Dashes); ("."%char, Dots); ("/"%char, ForwardSlashes); ("("%char, OpenParens);
   (")"%char, CloseParens)].
Fixpoint look (c : ascii) (l : list (ascii * kind)) : option kind :=
  match l with
  | (d, k) :: r => if Ascii.eqb c d then Some k else look c r
  | [] => None
  end.
(** the two bytes that may follow 0xE2/0xE3/0xEF — source_lexer.rs:99-110 *)
Definition wide_punctuation : list bytes :=
  map (map ch) [[226;128;175]; [226;128;135]; [226;128;152]; [226;128;153]; [226;128;156]; [226;128;157]; [226;129;160];
                [227;128;128]; [239;187;191]].
(** source_lexer.rs:56-117. [prev] is the byte before the position, [line_start] is
    [self.at_line_start()] there, [r] the text from there on. [None]: end of the source. *)
Definition scan (plugins : list bytes) (prev : option ascii) (line_start : bool) (r : bytes) : outcome (option raw) :=
  match at_delimiter_line line_start r with
  | Some (n, _) => Ret (Some (mkRaw DelimiterLine 0 n n))
  | None =>
    match r with
    | [] => Ret None
    | c :: t =>
        let some (x : raw) : outcome (option raw) := Ret (Some x) in
        match look c repeats with
        | Some k => some (repeating c k t)
        | None =>
        match look c singles with
        | Some k => some (single k)
        | None =>
        if mem c ws_bytes then some (whitespace t)
        else if Ascii.eqb c "&"%char then some (maybe_entity prev t)
        else if Ascii.eqb c "<"%char then some (maybe_callout_number t)
        else if Ascii.eqb c "{"%char then some (maybe_attr_ref prev t)
        else if Ascii.eqb c CR && is (nth_error t 0) LF then some (codepoint 2 Newline)
        else if digit c then some (digits t)
        else if Ascii.eqb c ";"%char || Ascii.eqb c ":"%char then some (maybe_term_delimiter c line_start t)
        else if Ascii.eqb c (ch 194) && is (nth_error t 0) (ch 160) then some (codepoint 2 Punctuation)
        else if existsb (fun p => starts_with p r) wide_punctuation then some (codepoint 3 Punctuation)
        else if Ascii.eqb c ESC && starts_with ($"ass:") t then some (codepoint 5 AttrPassDbl)
        else match word plugins r with Panic => Panic | Ret x => Ret (Some x) end
        end
        end
    end
  end.

(** parser/src/lexer/source_lexer.rs:7-16, without arena, file and nesting data *)
Record lexer := mkLexer { src : bytes; pos : nat; offset : nat }.
(** parser/src/token.rs Token: kind, location (start, end), lexeme *)
Record token := mkToken { t_kind : kind; t_start : nat; t_end : nat; t_lexeme : bytes }.

Definition rest (l : lexer) : bytes := skipn (pos l) (src l).
Definition prev_byte (l : lexer) : option ascii := match pos l with O => None | S n => nth_error (src l) n end.
(** source_lexer.rs:267-270 *)
Definition at_line_start (l : lexer) : bool := (pos l =? 0) || is (prev_byte l) LF.

(** source_lexer.rs:380-392. [Panic]: slice out of range, or not valid UTF-8. *)
Definition make_token (l : lexer) (k : kind) (s e : nat) : outcome token :=
  if (e <? s) || (length (src l) <? e) then Panic
  else let x := firstn (e - s) (skipn s (src l)) in
       if (e =? s) || is_utf8 x then Ret (mkToken k (s + offset l) (e + offset l) x) else Panic.

(** source_lexer.rs:56-117: at the end of the source the position still moves on by one *)
Definition next_token (plugins : list bytes) (l : lexer) : outcome (option token * lexer) :=
  match scan plugins (prev_byte l) (at_line_start l) (rest l) with
  | Panic => Panic
  | Ret None => Ret (None, mkLexer (src l) (pos l + 1) (offset l))
  | Ret (Some x) =>
      match make_token l (r_kind x) (pos l + r_start x) (pos l + r_end x) with
      | Panic => Panic
      | Ret t => Ret (Some t, mkLexer (src l) (pos l + r_pos x) (offset l))
      end
  end.

(** Reading a source to its end, as every caller that loops over [next_token] does. [None]: out of fuel. *)
Fixpoint tokens (plugins : list bytes) (fuel : nat) (l : lexer) : outcome (option (list token)) :=
  match fuel with
  | O => Ret None
  | S f =>
      match next_token plugins l with
      | Panic => Panic
      | Ret (None, _) => Ret (Some [])
      | Ret (Some t, l') =>
          match tokens plugins f l' with
          | Ret (Some ts) => Ret (Some (t :: ts))
          | x => x
          end
      end
  end.
(** source_lexer.rs:38-54 *)
Definition from_bytes (s : bytes) : lexer := mkLexer s 0 0.
