(** Model of reading tables: parser/src/tasks/table (mod.rs, context.rs, parse_table.rs, parse_table_spec.rs, parse_psv_table.rs,
    parse_dsv_table.rs, parse_csv_table.rs) and ast/src/table.rs:66-160.
    A token is its kind, its text and the mark "came from an attribute"; locations are left out. The cells hold the tokens handed to the
    inline parser or, for AsciiDoc cells, to the parser of the nested document: what those make of them is not modelled, and the nested
    document is taken to parse (a parser that is not strict reports problems and goes on). Problems reported through the parser's error list
    are collected in the order they are reported; a strict parser stops at the first. *)
From Verif Require Export Base LineModel.
From Verif Require Import Text ColsModel.
Open Scope nat_scope.

(** token.rs:6-12 *)
Record ttok := TT { bt :> tok; ar : bool }.

(** What comes of running a piece of the parser: a value, a panic, or (with too little fuel, or in a loop that never ends) nothing yet. *)
Inductive res (A : Type) := Done (a : A) | Crash | Loops.
Arguments Done {A}. Arguments Crash {A}. Arguments Loops {A}.
Definition rbind {A B} (r : res A) (f : A -> res B) : res B := match r with Done a => f a | Crash => Crash | Loops => Loops end.
Notation "'do' x <- r ; s" := (rbind r (fun x => s)) (at level 200, x pattern, r at level 100, s at level 200).

(** table/mod.rs:13-51: the separator is a character, here its UTF-8 bytes *)
Inductive format := Prefix | Csv | Delimited.
Definition sep_kind (sep : bytes) : option kind :=
  if bytes_eqb sep ($":") then Some Colon else if bytes_eqb sep ($";") then Some SemiColon
  else if bytes_eqb sep ($"|") then Some Pipe else if bytes_eqb sep ($",") then Some Comma else None.
Definition embeddable (sep : bytes) : option bytes := match sep_kind sep with Some _ => None | None => Some sep end.

(** ast/src/table.rs:115-160. [c_toks] is what the content is parsed from. *)
Record cell_spec := CellSpec { duplication : option nat; col_span : option nat; row_span : option nat; spec_h : option halign; spec_v : option valign; spec_style : option style }.
Definition default_cell : cell_spec := CellSpec None None None None None None.
Record cell := Cell { c_style : style; c_toks : list ttok; c_cols : nat; c_rows : nat; c_h : halign; c_v : valign }.
Definition or_default {A} (o : option A) (d : A) : A := match o with Some a => a | None => d end.
Definition new_cell (st : style) (toks : list ttok) (spec : cell_spec) (cs : option col_spec) : cell :=
  Cell st toks (or_default (col_span spec) 1) (or_default (row_span spec) 1)
    (or_default (spec_h spec) (match cs with Some c => h_align c | None => HLeft end))
    (or_default (spec_v spec) (match cs with Some c => v_align c | None => VTop end)).

(** ** Cell starts: parse_table_spec.rs:93-310 *)
Fixpoint kinds_at (ks : list kind) (l : list ttok) : bool :=
  match ks, l with [], _ => true | k :: ks, t :: l => is_k k t && kinds_at ks l | _ :: _, [] => false end.
(** [lexeme.parse::<u8>()] of the token there *)
Definition u8_at (l : list ttok) : option nat := match l with t :: _ => option_map N.to_nat (parse_bounded 256 (tx t)) | [] => None end.
Definition is_dot (o : option ttok) : bool := match o with Some t => is_k Dots t && len_is 1 t | None => false end.
(** 221-228. Each of these takes the specification so far and the tokens at the cursor, and says how many tokens the cursor moves. *)
Definition parse_duplication (s : cell_spec) (l : list ttok) : cell_spec * nat :=
  if kinds_at [Digits; Star] l then
    match u8_at l with
    | Some d => (CellSpec (Some d) (col_span s) (row_span s) (spec_h s) (spec_v s) (spec_style s), 2)
    | None => (s, 0)
    end
  else (s, 0).
(** 230-266 *)
Definition parse_span (s : cell_spec) (l : list ttok) : cell_spec * nat :=
  let set c r := CellSpec (duplication s) c r (spec_h s) (spec_v s) (spec_style s) in
  if kinds_at [Digits; Plus] l then match u8_at l with Some c => (set (Some c) (row_span s), 2) | None => (s, 0) end
  else if kinds_at [Dots; Digits; Plus] l then
    if is_dot (nth_error l 0) then match u8_at (skipn 1 l) with Some r => (set (col_span s) (Some r), 3) | None => (s, 0) end else (s, 0)
  else if kinds_at [Digits; Dots; Digits; Plus] l then
    if is_dot (nth_error l 1) then match u8_at l, u8_at (skipn 2 l) with Some c, Some r => (set (Some c) (Some r), 4) | _, _ => (s, 0) end else (s, 0)
  else (s, 0).
(** 268-283 *)
Definition parse_h (s : cell_spec) (l : list ttok) : cell_spec * nat :=
  let set h v := CellSpec (duplication s) (col_span s) (row_span s) h v (spec_style s) in
  match l with
  | [] => (s, 0)
  | t :: _ => match tk t with
    | LessThan => (set (Some HLeft) (spec_v s), 1)
    | GreaterThan => (set (Some HRight) (spec_v s), 1)
    | Caret => (set (Some HCenter) (spec_v s), 1)
    | CalloutNumber => if bytes_eqb (tx t) ($"<.>") then (set (Some HLeft) (Some VBottom), 1) else (s, 0)
    | _ => (s, 0)
    end
  end.
(** 285-296 *)
Definition parse_v (s : cell_spec) (l : list ttok) : cell_spec * nat :=
  let set v := CellSpec (duplication s) (col_span s) (row_span s) (spec_h s) (Some v) (spec_style s) in
  if is_dot (nth_error l 0) then
    match nth_error l 1 with
    | Some t => match tk t with GreaterThan => (set VBottom, 2) | LessThan => (set VTop, 2) | Caret => (set VMiddle, 2) | _ => (s, 0) end
    | None => (s, 0)
    end
  else (s, 0).
(** ast/src/table.rs:228-246 *)
Definition cell_style_of (c : ascii) : option style := if Ascii.eqb c "v"%char then Some SDefault else style_of c.
(** parse_table_spec.rs:194-219: the flag says that the style is the first letter of a longer word *)
Definition parse_style (s : cell_spec) (l : list ttok) : cell_spec * nat * bool :=
  match l with
  | t :: _ =>
      if is_k Word t then
        match tx t with
        | c :: _ => match cell_style_of c with
          | Some st =>
              let s := CellSpec (duplication s) (col_span s) (row_span s) (spec_h s) (spec_v s) (Some st) in
              if length (tx t) =? 1 then (s, 1, false) else (s, 0, true)
          | None => (s, 0, false)
          end
        | [] => (s, 0, false)
        end
      else (s, 0, false)
  | [] => (s, 0, false)
  end.
(** 10-14: the specification, the tokens and then the bytes to drop *)
Record cell_start := CellStart { st_spec : cell_spec; drop_tokens : nat; drop_bytes : nat }.
(** 104-191 *)
Definition peek_cell_start (sep : bytes) (l : list ttok) : option cell_start :=
  match l with
  | [] => None
  | t :: _ =>
      if ar t then None
      else if starts_with sep (tx t) then
        Some (if length (tx t) =? length sep then CellStart default_cell 1 0 else CellStart default_cell 0 (length sep))
      else if (if is_k Word t then match tx t with c :: _ => mem c ($"adehlmsv") | [] => false end
               else one_of [Digits; Dots; LessThan; GreaterThan; Caret; CalloutNumber] t)
      then
        let '(s, n) := parse_duplication default_cell l in
        let cursor := n in
        let '(s, n) := parse_span s (skipn cursor l) in
        let cursor := cursor + n in
        let '(s, n) := parse_h s (skipn cursor l) in
        let cursor := cursor + n in
        let '(s, n) := parse_v s (skipn cursor l) in
        let cursor := cursor + n in
        let '(s, n, within) := parse_style s (skipn cursor l) in
        let cursor := cursor + n in
        if cursor =? 0 then None
        else match nth_error l cursor with
        | None => None
        | Some c =>
            if negb within then if bytes_eqb (tx c) sep then Some (CellStart s (cursor + 1) 0) else None
            else if (length (tx c) =? 2) && starts_with sep (skipn 1 (tx c)) then Some (CellStart s (cursor + 1) 0)
            else if (2 <? length (tx c)) && starts_with sep (skipn 1 (tx c)) then Some (CellStart s cursor (1 + length sep))
            else None
        end
      else None
  end.
(** 93-95 *)
Definition starts_psv_cell (sep : bytes) (l : list ttok) : bool := match peek_cell_start sep l with Some _ => true | None => false end.
(** line.rs:861-866 and token.rs:147-169: the bytes dropped here are always whole characters *)
Definition drop_token_bytes (n : nat) (t : ttok) : ttok :=
  if n =? 0 then t else let x := skipn n (tx t) in TT (Tok (match x with [] => Discard | _ => Word end) x) (ar t).
Definition drop_leading_bytes (n : nat) (l : list ttok) : list ttok := match l with t :: r => drop_token_bytes n t :: r | [] => [] end.
(** parse_table_spec.rs:97-106 *)
Definition consume_cell_start (sep : bytes) (l : list ttok) : option (cell_spec * list ttok) :=
  match peek_cell_start sep l with
  | Some st => Some (st_spec st, drop_leading_bytes (drop_bytes st) (skipn (drop_tokens st) l))
  | None => None
  end.

(** table/mod.rs:95-126: the next token, cut before a separator inside a word. [Crash]: the assertion at line 110 fails because the word
    begins with the separator; without assertions the token is not consumed and the calling loop never ends. *)
Definition consume_splitting (sep : option bytes) (l : list ttok) : res (option (ttok * list ttok)) :=
  match l with
  | [] => Done None
  | t :: r =>
      match sep with
      | None => Done (Some (t, r))
      | Some s =>
          if negb (is_k Word t) then Done (Some (t, r))
          else match find_sub s (tx t) with
          | None => Done (Some (t, r))
          | Some 0 => Crash
          | Some n => Done (Some (TT (Tok Word (firstn n (tx t))) false, drop_leading_bytes n l))
          end
      end
  end.

(** ** Header rows and cells: context.rs:28-51, parse_table.rs:118-329 *)
Inductive header := HUnknown | HImplicit | HNone | HSet | HUnset.
Definition known_to_exist (h : header) : bool := match h with HImplicit | HSet => true | _ => false end.
Definition is_unknown (h : header) : bool := match h with HUnknown => true | _ => false end.
(** the part of the context that finishing a cell reads and writes; [has_header]: the header row was already put in place *)
Record hstate := HS { hdr : header; reparse : list (list ttok * cell_spec * option col_spec); has_header : bool }.
(** token.rs:200-202, 274-276 *)
Definition wsish (t : ttok) : bool := is_k Whitespace t || is_k Newline t.
Definition nl (t : ttok) : bool := is_k Newline t.
Definition ws (t : ttok) : bool := is_k Whitespace t.
Fixpoint drop_while {A} (f : A -> bool) (l : list A) : list A := match l with a :: r => if f a then drop_while f r else l | [] => [] end.
Fixpoint take_while {A} (f : A -> bool) (l : list A) : list A := match l with a :: r => if f a then a :: take_while f r else [] | [] => [] end.
Definition trim_end (l : list ttok) : list ttok := rev (drop_while wsish (rev l)).
(** the white space trimmed, last token first *)
Definition end_ws (l : list ttok) : list ttok := take_while wsish (rev l).
(** [contains_seq(&[Kind(Newline); 2])] *)
Fixpoint has_blank_line (l : list ttok) : bool := match l with a :: ((b :: _) as r) => (nl a && nl b) || has_blank_line r | _ => false end.
(** line.rs:938-948 *)
Definition trim_for_cell (st : style) (l : list ttok) : list ttok := trim_end (match st with SLiteral => drop_while nl l | _ => l end).
Definition style_eqb (a b : style) : bool :=
  match a, b with
  | SAsciiDoc, SAsciiDoc | SDefault, SDefault | SEmphasis, SEmphasis | SHeader, SHeader | SLiteral, SLiteral | SMonospace, SMonospace | SStrong, SStrong => true
  | _, _ => false
  end.
(** parse_table.rs:303-329: an empty cell is not trimmed *)
Definition parse_non_asciidoc_cell (toks : list ttok) (spec : cell_spec) (cs : option col_spec) (st : style) : cell := new_cell st (trim_for_cell st toks) spec cs.
(** parse_table.rs:163-270. [colspecs] are the columns of the [cols] attribute. *)
Definition finish_cell (fmt : format) (colspecs : list col_spec) (h : hstate) (spec : cell_spec) (toks : list ttok) (col_index : nat) : cell * nat * hstate :=
  let cs := nth_error colspecs col_index in
  let st := or_default (spec_style spec) (match cs with Some c => col_style c | None => SDefault end) in
  let st := if known_to_exist (hdr h) && negb (has_header h) then SDefault else st in
  let toks' := trim_end toks in
  let '(h', trimmed) :=
    if is_unknown (hdr h) && (match fmt with Prefix => true | _ => false end) then
      match rev (end_ws toks) with
      | a :: b :: _ => if nl a && nl b then (HImplicit, true) else if has_blank_line toks' then (HNone, false) else (hdr h, false)
      | _ => if has_blank_line toks' then (HNone, false) else (hdr h, false)
      end
    else (hdr h, false) in
  let keep := (style_eqb st SAsciiDoc || style_eqb st SLiteral) && (is_unknown h' || trimmed) in
  (parse_non_asciidoc_cell toks' spec cs st, or_default (duplication spec) 1,
   HS h' (if keep then reparse h ++ [(toks', spec, cs)] else reparse h) (has_header h)).

(** parse_table.rs:279-301: the cells of an implicit header lose their style. [Crash]: no tokens were kept for the cell. *)
Fixpoint reparse_header_cells (kept : list (list ttok * cell_spec * option col_spec)) (row : list cell) : outcome (list cell * list (list ttok * cell_spec * option col_spec)) :=
  match row with
  | [] => Ret ([], kept)
  | c :: row =>
      if style_eqb (c_style c) SAsciiDoc || style_eqb (c_style c) SLiteral then
        match kept with
        | [] => Panic
        | (toks, spec, cs) :: kept =>
            let d := parse_non_asciidoc_cell toks spec cs SDefault in
            match reparse_header_cells kept row with
            | Ret (row, kept) => Ret (Cell SDefault (c_toks d) (c_cols c) (c_rows c) (c_h c) (c_v c) :: row, kept)
            | Panic => Panic
            end
        end
      else
        match reparse_header_cells kept row with
        | Ret (row, kept) => Ret (Cell SDefault (c_toks c) (c_cols c) (c_rows c) (c_h c) (c_v c) :: row, kept)
        | Panic => Panic
        end
  end.

(** the table so far: ast/src/table.rs:86-91, without widths and footer *)
Record table := Table { t_header : option (list cell); t_rows : list (list cell) }.
Definition settle (h : header) : header := if is_unknown h then HNone else h.
(** what parse_table.rs:118-137 and 148-160 share: the row becomes the header or the next row *)
Definition place_row (as_header : bool) (h : hstate) (t : table) (row : list cell) : res (hstate * table) :=
  if as_header then
    match hdr h with
    | HImplicit => match reparse_header_cells (reparse h) row with Ret (row, kept) => Done (HS (hdr h) kept true, Table (Some row) (t_rows t)) | Panic => Crash end
    | _ => Done (HS (hdr h) (reparse h) true, Table (Some row) (t_rows t))
    end
  else Done (HS (settle (hdr h)) (reparse h) (has_header h), Table (t_header t) (t_rows t ++ [row])).
(** parse_table.rs:118-137 *)
Definition push_table_row (h : hstate) (t : table) (row : list cell) : res (hstate * table) :=
  place_row (match t_rows t with [] => negb (has_header h) && known_to_exist (hdr h) | _ => false end) h t row.
(** parse_table.rs:139-161: the first row when columns are counted; the row number and the table's widths are the caller's *)
Definition finish_implicit_header_row (h : hstate) (t : table) (cells : list cell) : res (hstate * table) :=
  match cells with [] => Done (h, t) | _ => place_row (known_to_exist (hdr h)) h t cells end.

(** ** Pipe separated tables: parse_psv_table.rs:5-146 *)
Inductive problem := ExpectedSeparator | SpanExceedsColumns (span cols : nat) | UnclosedQuote | StrayQuote.
(** where the reader is: the tokens left, whether columns are still counted, the header, the problems *)
Record reader := Reader { toks : list ttok; counting : bool; hs : hstate; probs : list problem }.
(** a size that every step of a reader makes smaller *)
Definition size (l : list ttok) : nat := list_sum (map (fun t : ttok => S (length (tx t))) l).

(** parse_psv_table.rs:110-145: the tokens of the cell, the tokens after it and whether columns are still counted *)
Fixpoint psv_body (fuel : nat) (sep : bytes) (count : bool) (l : list ttok) : res (list ttok * list ttok * bool) :=
  match fuel with
  | 0 => Loops
  | S f =>
      if starts_psv_cell sep l then Done ([], l, count)
      else
        do o <- consume_splitting (embeddable sep) l;
        match o with
        | None => Done ([], [], count)
        | Some (t, r) =>
            let count := count && negb (nl t) in
            if negb (is_k Backslash t) || negb (starts_psv_cell sep r) then do (body, rest, count) <- psv_body f sep count r; Done (t :: body, rest, count)
            else match r with
            | next :: r => do (body, rest, count) <- psv_body f sep count r; Done (next :: body, rest, count)
            | [] => psv_body f sep count r
            end
        end
  end.
(** 74-146, up to the call of finish_cell: [None] when there are no tokens left. Cells that are too wide are reported and dropped. *)
Fixpoint psv_cell (fuel : nat) (sep : bytes) (num_cols : nat) (count : bool) (ps : list problem) (l : list ttok)
  : res (option (cell_spec * list ttok) * list ttok * bool * list problem) :=
  match fuel with
  | 0 => Loops
  | S f =>
      match l with
      | [] => Done (None, [], count, ps)
      | _ =>
          let '(spec, l, ps) := match consume_cell_start sep l with Some (spec, l) => (spec, l, ps) | None => (default_cell, l, ps ++ [ExpectedSeparator]) end in
          let drop := negb count && (num_cols mod 256 <? or_default (col_span spec) 0) in
          let ps := if drop then ps ++ [SpanExceedsColumns (or_default (col_span spec) 0) num_cols] else ps in
          do (body, rest, count) <- psv_body (S (size l)) sep count (drop_while ws l);
          if drop then psv_cell f sep num_cols count ps rest else Done (Some (spec, body), rest, count, ps)
      end
  end.
(** 74-146 with finish_cell *)
Definition parse_psv_table_cell (sep : bytes) (colspecs : list col_spec) (num_cols : nat) (r : reader) (col_index : nat) : res (option (cell * nat) * reader) :=
  do (o, rest, count, ps) <- psv_cell (S (size (toks r))) sep num_cols (counting r) (probs r) (toks r);
  match o with
  | None => Done (None, Reader rest count (hs r) ps)
  | Some (spec, body) => let '(c, d, h) := finish_cell Prefix colspecs (hs r) spec body col_index in Done (Some (c, d), Reader rest count h ps)
  end.

(** context.rs:61-88: the grid places taken by spans, as a set *)
Definition place := (nat * nat)%type.
Definition place_eqb (a b : place) : bool := (fst a =? fst b) && (snd a =? snd b).
Definition insert (p : place) (l : list place) : list place := if existsb (place_eqb p) l then l else p :: l.
Definition cell_places (c : cell) (row col : nat) : list place :=
  flat_map (fun r => flat_map (fun k => if (r =? 0) && (k =? 0) then [] else [(row + r, col + k)]) (seq 0 (c_cols c))) (seq 0 (c_rows c)).
Definition add_phantom_cells (ph : list place) (c : cell) (row col : nat) : list place := fold_left (fun l p => insert p l) (cell_places c row col) ph.
Definition row_phantom_cells (ph : list place) (row : nat) : nat := length (filter (fun p => fst p =? row) ph).

(** parse_psv_table.rs:5-30: the copies of a cell in the first row when columns are counted *)
Fixpoint first_copies (n : nat) (c : cell) (cells : list cell) (ph : list place) : list cell * list place :=
  match n with
  | 0 => (cells, ph)
  | S n => first_copies n c (cells ++ [c]) (add_phantom_cells ph c 0 (length cells))
  end.
Fixpoint psv_first_cells (fuel : nat) (sep : bytes) (colspecs : list col_spec) (num_cols : nat) (r : reader) (cells : list cell) (ph : list place)
  : res (list cell * list place * reader) :=
  match fuel with
  | 0 => Loops
  | S f =>
      do (o, r) <- parse_psv_table_cell sep colspecs num_cols r (length cells);
      match o with
      | None => Done (cells, ph, r)
      | Some (c, dupe) =>
          let '(cells, ph) := first_copies (Nat.max 1 dupe) c cells ph in
          if counting r then psv_first_cells f sep colspecs num_cols r cells ph else Done (cells, ph, r)
      end
  end.
(** the row builder's state: context.rs:8-26 *)
Record rows := Rows { rd : reader; phantom : list place; row_idx : nat; spilled : list cell }.
Definition sum_spans (cells : list cell) : nat := list_sum (map c_cols cells).
Definition parse_psv_implicit_first_row (sep : bytes) (r : reader) : res (list cell * nat * rows) :=
  do (cells, ph, r) <- psv_first_cells (S (size (toks r))) sep [] 0 r [] [];
  Done (cells, sum_spans cells, Rows (Reader (drop_while nl (toks r)) (counting r) (hs r) (probs r)) ph (match cells with [] => 0 | _ => 1 end) []).

(** parse_psv_table.rs:48-58: the copies of a cell but the last *)
Fixpoint row_copies (n : nat) (num_cols : nat) (c : cell) (row : nat) (eff : nat) (cells spill : list cell) (ph : list place) : nat * list cell * list cell * list place :=
  match n with
  | 0 => (eff, cells, spill, ph)
  | S n =>
      let ph := add_phantom_cells ph c row eff in
      let eff := eff + c_cols c in
      if eff <? num_cols then row_copies n num_cols c row eff (cells ++ [c]) spill ph else row_copies n num_cols c row eff cells (spill ++ [c]) ph
  end.
(** 47-66 *)
Fixpoint row_cells (fuel : nat) (sep : bytes) (colspecs : list col_spec) (num_cols : nat) (s : rows) (eff : nat) (cells : list cell) : res (list cell * rows) :=
  match fuel with
  | 0 => Loops
  | S f =>
      do (o, r) <- parse_psv_table_cell sep colspecs num_cols (rd s) (length cells);
      match o with
      | None => Done (cells, Rows r (phantom s) (row_idx s) (spilled s))
      | Some (c, dupe) =>
          let '(eff, cells, spill, ph) := row_copies (dupe - 1) num_cols c (row_idx s) eff cells (spilled s) (phantom s) in
          let ph := add_phantom_cells ph c (row_idx s) eff in
          let eff := eff + c_cols c in
          let cells := cells ++ [c] in
          let s := Rows r ph (row_idx s) spill in
          if num_cols <=? eff then Done (cells, s) else row_cells f sep colspecs num_cols s eff cells
      end
  end.
(** 32-72 *)
Definition parse_psv_table_row (sep : bytes) (colspecs : list col_spec) (num_cols : nat) (s : rows) : res (option (list cell) * rows) :=
  let eff := row_phantom_cells (phantom s) (row_idx s) in
  let room := num_cols - eff in
  let cells := firstn (Nat.min room (length (spilled s))) (spilled s) in
  let rest := skipn (Nat.min room (length (spilled s))) (spilled s) in
  if length cells =? room then Done (Some cells, Rows (rd s) (phantom s) (S (row_idx s)) rest)
  else
    do (cells, s) <- row_cells (S (size (toks (rd s)))) sep colspecs num_cols (Rows (rd s) (phantom s) (row_idx s) rest) eff cells;
    match cells with
    | [] => Done (None, s)
    | _ => Done (Some cells, Rows (rd s) (phantom s) (S (row_idx s)) (spilled s))
    end.
Definition with_hs (r : reader) (h : hstate) : reader := Reader (toks r) (counting r) h (probs r).
(** parse_table.rs:100-103. The loop's fuel is the caller's: it is not known to end. *)
Fixpoint psv_rows (fuel : nat) (sep : bytes) (colspecs : list col_spec) (num_cols : nat) (s : rows) (t : table) : res (table * rows) :=
  match fuel with
  | 0 => Loops
  | S f =>
      do (o, s) <- parse_psv_table_row sep colspecs num_cols s;
      match o with
      | None => Done (t, s)
      | Some row =>
          do (h, t) <- push_table_row (hs (rd s)) t row;
          psv_rows f sep colspecs num_cols (Rows (with_hs (rd s) h) (phantom s) (row_idx s) (spilled s)) t
      end
  end.

(** ** Tables of values: parse_dsv_table.rs:5-147, parse_csv_table.rs:5-67 *)
Inductive last_consumed := LDelimiter | LNewline | LOther.
Record values := Values { vr : reader; dsv_last : last_consumed }.
Definition set_toks (r : reader) (l : list ttok) : reader := Reader l (counting r) (hs r) (probs r).
(** parse_dsv_table.rs:113-147; [l] is not empty where the separator has no kind of its own *)
Definition consume_dsv_delimiter (sep : bytes) (l : list ttok) : bool * list ttok * last_consumed :=
  match l with
  | [] => (false, l, LOther)
  | t :: r =>
      if nl t then (true, r, LNewline)
      else match sep_kind sep with
      | Some k => if is_k k t then (true, r, LDelimiter) else (false, l, LOther)
      | None =>
          if starts_with sep (tx t) then (true, if length (tx t) =? length sep then r else drop_leading_bytes (length sep) l, LDelimiter)
          else (false, l, LOther)
      end
  end.
(** what reading the text of a cell gives: its tokens, the tokens after it, whether columns are still counted, what ended it, the problems *)
Record scanned := Scanned { sc_cell : list ttok; sc_rest : list ttok; sc_count : bool; sc_last : last_consumed; sc_probs : list problem }.
Definition add_tok (t : ttok) (s : scanned) : scanned := Scanned (t :: sc_cell s) (sc_rest s) (sc_count s) (sc_last s) (sc_probs s).
(** parse_dsv_table.rs:85-111 *)
Fixpoint dsv_text (fuel : nat) (sep : bytes) (count : bool) (last : last_consumed) (ps : list problem) (l : list ttok) : res scanned :=
  match fuel with
  | 0 => Loops
  | S f =>
      match l with
      | [] => Done (Scanned [] [] count last ps)
      | _ =>
          let '(found, l, last) := consume_dsv_delimiter sep l in
          if found then Done (Scanned [] l (match last with LNewline => false | _ => count end) last ps)
          else
            do o <- consume_splitting (embeddable sep) l;
            match o with
            | None => Crash
            | Some (t, r) =>
                let count := count && negb (nl t) in
                if negb (is_k Backslash t) then do s <- dsv_text f sep count last ps r; Done (add_tok t s)
                else match r with
                | next :: r => do s <- dsv_text f sep count last ps r; Done (add_tok next s)
                | [] => dsv_text f sep count last ps r
                end
            end
      end
  end.
Definition cur_is (k : kind) (l : list ttok) : bool := match l with t :: _ => is_k k t | [] => false end.
(** parse_csv_table.rs:31-66 *)
Fixpoint csv_text (fuel : nat) (sep : bytes) (quoted : bool) (count : bool) (last : last_consumed) (ps : list problem) (l : list ttok) : res scanned :=
  match fuel with
  | 0 => Loops
  | S f =>
      match l with
      | [] => Done (Scanned [] [] count last (if quoted then ps ++ [UnclosedQuote] else ps))
      | _ =>
          let '(found, l, last) := if quoted then (false, l, last) else consume_dsv_delimiter sep l in
          if found then Done (Scanned [] l (match last with LNewline => false | _ => count end) last ps)
          else
            do o <- consume_splitting (embeddable sep) l;
            match o with
            | None => Crash
            | Some (t, r) =>
                let count := count && negb (nl t) in
                if is_k DoubleQuote t then
                  if negb quoted then csv_text f sep quoted count last (ps ++ [StrayQuote]) r
                  else match r with
                  | q :: r' => if is_k DoubleQuote q then do s <- csv_text f sep quoted count last ps r'; Done (add_tok q s) else csv_text f sep false count last ps r
                  | [] => csv_text f sep false count last ps r
                  end
                else do s <- csv_text f sep quoted count last ps r; Done (add_tok t s)
            end
      end
  end.
(** parse_csv_table.rs:14-29 *)
Definition csv_cell (sep : bytes) (count : bool) (last : last_consumed) (ps : list problem) (l : list ttok) : res scanned :=
  if cur_is DoubleQuote l then let l := drop_while wsish (tl l) in csv_text (S (size l)) sep true count last ps l
  else csv_text (S (size l)) sep false count last ps l.

(** parse_dsv_table.rs:42-83 *)
Definition parse_dsv_table_cell (fmt : format) (sep : bytes) (colspecs : list col_spec) (v : values) (col_index : nat) : res (option cell * values) :=
  let r := vr v in
  match toks r with
  | [] => Done (None, v)
  | l =>
      let trimmed_newline := existsb nl (take_while wsish l) in
      let count := counting r && negb trimmed_newline in
      let l := drop_while wsish l in
      if (match dsv_last v with LDelimiter => true | _ => false end) && trimmed_newline then
        let '(c, _, h) := finish_cell fmt colspecs (hs r) default_cell [] col_index in
        Done (Some c, Values (Reader l count h (probs r)) (dsv_last v))
      else
        do s <- (match fmt with
                 | Csv => csv_cell sep count (dsv_last v) (probs r) l
                 | _ => dsv_text (S (size l)) sep count (dsv_last v) (probs r) l
                 end);
        let '(c, _, h) := finish_cell fmt colspecs (hs r) default_cell (sc_cell s) col_index in
        let implicit := is_unknown (hdr h) && (match sc_last s with LNewline => true | _ => false end) && cur_is Newline (sc_rest s) in
        let h := if implicit then HS HImplicit (reparse h) (has_header h) else h in
        Done (Some c, Values (Reader (sc_rest s) (sc_count s) h (sc_probs s)) (sc_last s))
  end.
(** parse_dsv_table.rs:5-19 *)
Fixpoint dsv_first_cells (fuel : nat) (fmt : format) (sep : bytes) (v : values) (cells : list cell) : res (list cell * values) :=
  match fuel with
  | 0 => Loops
  | S f =>
      do (o, v) <- parse_dsv_table_cell fmt sep [] v (length cells);
      match o with
      | None => Done (cells, v)
      | Some c => let cells := cells ++ [c] in if counting (vr v) then dsv_first_cells f fmt sep v cells else Done (cells, v)
      end
  end.
(** parse_dsv_table.rs:21-40 *)
Fixpoint dsv_row (fuel : nat) (fmt : format) (sep : bytes) (colspecs : list col_spec) (num_cols : nat) (v : values) (cells : list cell) : res (list cell * values) :=
  match fuel with
  | 0 => Loops
  | S f =>
      do (o, v) <- parse_dsv_table_cell fmt sep colspecs v (length cells);
      match o with
      | None => Done (cells, v)
      | Some c => let cells := cells ++ [c] in if length cells =? num_cols then Done (cells, v) else dsv_row f fmt sep colspecs num_cols v cells
      end
  end.
(** parse_table.rs:95-99 *)
Fixpoint dsv_rows (fuel : nat) (fmt : format) (sep : bytes) (colspecs : list col_spec) (num_cols : nat) (v : values) (t : table) : res (table * values) :=
  match fuel with
  | 0 => Loops
  | S f =>
      do (cells, v) <- dsv_row (S (size (toks (vr v)))) fmt sep colspecs num_cols v [];
      match cells with
      | [] => Done (t, v)
      | _ => do (h, t) <- push_table_row (hs (vr v)) t cells; dsv_rows f fmt sep colspecs num_cols (Values (with_hs (vr v) h) (dsv_last v)) t
      end
  end.

(** ** Tables: parse_table.rs:11-116 *)
(** 351-398: the tokens between the delimiter lines. [first] are the lines read with the opening delimiter, [more] those after them; the
    result is the tokens, the lines left and whether the table was closed. A line is its tokens. *)
Definition line_is (a b : list ttok) : bool := (length a =? length b) && forallb (fun p : ttok * ttok => bytes_eqb (tx (fst p)) (tx (snd p))) (combine a b).
Definition is_comment (l : list ttok) : bool := match l with t :: _ => is_k ForwardSlashes t && len_is 2 t | [] => false end.
Definition newline_token : ttok := TT (Tok Newline [LF]) false.
Fixpoint more_content (delim : list ttok) (acc : list ttok) (more : list (list ttok)) : list ttok * list (list ttok) * bool :=
  match more with
  | [] => (acc, [], false)
  | l :: more =>
      if is_comment l then more_content delim acc more
      else
        let acc := match acc with [] => [] | _ => acc ++ [newline_token] end in
        if line_is l delim then (acc, more, true) else more_content delim (acc ++ l) more
  end.
Fixpoint table_content (delim : list ttok) (acc : list ttok) (first more : list (list ttok)) : list ttok * list (list ttok) * bool :=
  match first with
  | [] => more_content delim acc more
  | l :: first =>
      if line_is l delim then (acc, first ++ more, true)
      else if is_comment l then table_content delim acc first more
      else table_content delim ((acc ++ l) ++ match first with [] => [] | _ => [newline_token] end) first more
  end.

(** parse_table.rs:11-116, from the format and the separator on; the options are [header], [noheader] and [footer]. The result is the table,
    its number of columns, its footer and the problems. [fuel] bounds the rows. *)
Record options := Options { opt_header : bool; opt_noheader : bool; opt_footer : bool }.
Record read_table := ReadTable { rt_table : table; rt_cols : nat; rt_footer : option (list cell); rt_probs : list problem }.
Definition first_header (o : options) (first : list (list ttok)) : header :=
  if opt_header o then HSet else if opt_noheader o then HUnset else if length first =? 1 then HUnknown else HNone.
Definition with_footer (o : options) (t : table) (n : nat) (ps : list problem) : read_table :=
  if opt_footer o then
    match rev (t_rows t) with
    | f :: rs => ReadTable (Table (t_header t) (rev rs)) n (Some f) ps
    | [] => ReadTable t n None ps
    end
  else ReadTable t n None ps.
Definition parse_tokens (fuel : nat) (fmt : format) (sep : bytes) (colspecs : list col_spec) (o : options) (h : header) (l : list ttok) : res read_table :=
  let r := Reader l (match colspecs with [] => true | _ => false end) (HS h [] false) [] in
  let n := length colspecs in
  match fmt with
  | Prefix =>
      do (n, s, t) <-
        (if counting r then
           do (cells, n, s) <- parse_psv_implicit_first_row sep r;
           do (h, t) <- finish_implicit_header_row (hs (rd s)) (Table None []) cells;
           Done (n, Rows (with_hs (rd s) h) (phantom s) (row_idx s) (spilled s), t)
         else Done (n, Rows r [] 0 [], Table None []));
      do (t, s) <- psv_rows fuel sep colspecs n s t;
      Done (with_footer o t n (probs (rd s)))
  | _ =>
      do (n, v, t) <-
        (if counting r then
           do (cells, v) <- dsv_first_cells (S (size l)) fmt sep (Values r LOther) [];
           do (h, t) <- finish_implicit_header_row (hs (vr v)) (Table None []) cells;
           Done (length cells, Values (with_hs (vr v) h) (dsv_last v), t)
         else Done (n, Values r LOther, Table None []));
      do (t, v) <- dsv_rows fuel fmt sep colspecs n v t;
      Done (with_footer o t n (probs (vr v)))
  end.
Definition parse_table (fuel : nat) (fmt : format) (sep : bytes) (colspecs : list col_spec) (o : options) (delim : list ttok) (first more : list (list ttok)) : res read_table :=
  let '(l, _, _) := table_content delim [] first more in parse_tokens fuel fmt sep colspecs o (first_header o first) l.
