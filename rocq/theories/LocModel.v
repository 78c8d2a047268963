(** Model of how positions are turned into line numbers, columns and line texts, and of diagnostics:
    parser/src/lexer/source_lexer.rs:203-261 and 681-705, root_lexer.rs:268-287, parser/src/diagnostic.rs, tck/src/loc.rs. *)
From Verif Require Import Base Utf8 Text LexerModel RootModel.

(** the loop of source_lexer.rs:248-261; indexing past the end panics *)
Fixpoint count_lines (n : nat) (s : bytes) (line col : nat) : outcome (nat * nat) :=
  match n, s with
  | O, _ => Ret (line, col)
  | S _, [] => Panic
  | S n', c :: t => if Ascii.eqb c LF then count_lines n' t (S line) 0 else count_lines n' t line (S col)
  end.
(** source_lexer.rs:248-261. [location - offset] panics (or wraps, and then indexing panics) below the offset. *)
Definition line_number_with_offset (l : lexer) (p : nat) : outcome (nat * nat) :=
  if p <? offset l then Panic else count_lines (p - offset l) (src l) 1 0.

(** source_lexer.rs:228-230 *)
Fixpoint back (s : bytes) (start : nat) : outcome nat :=
  match start with
  | O => Ret 0
  | S k => match nth_error s k with None => Panic | Some c => if Ascii.eqb c LF then Ret start else back s k end
  end.
Definition cut (s : bytes) (i j : nat) : bytes := firstn (j - i) (skipn i s).
(** [str::trim_ascii_end] *)
Fixpoint trim_end (s : bytes) : bytes :=
  match s with
  | [] => []
  | c :: t => match trim_end t with [] => if ascii_ws c then [] else [c] | t' => c :: t' end
  end.
(** source_lexer.rs:223-246 *)
Definition line_of (l : lexer) (p : nat) : outcome bytes :=
  if p <? offset l then Panic
  else
    let p := p - offset l in
    match back (src l) p with
    | Panic => Panic
    | Ret start =>
        let stop := p + run (fun c => negb (mem c [CR; LF])) (skipn p (src l)) in
        let line := cut (src l) start stop in
        if is_utf8 line then Ret (trim_end line) else Panic
    end.

(** source_lexer.rs:687-705 (the slices are cut at newlines, so [from_utf8] succeeds on valid text; not modelled further) *)
Fixpoint raw_lines_from (s cur : bytes) : list bytes :=
  match s with
  | [] => match cur with [] => [] | _ => [rev cur] end
  | c :: t => if Ascii.eqb c LF then rev cur :: raw_lines_from t [] else raw_lines_from t (c :: cur)
  end.
Definition raw_lines (s : bytes) : list bytes := raw_lines_from s [].

(** root_lexer.rs:268-279: the source named by the location's include_depth *)
Definition root_line_number (r : root) (x : loc) : outcome (nat * nat) :=
  match nth_error (sources r) (l_src x) with Some s => line_number_with_offset (s_lex s) (l_start x) | None => Panic end.
Definition root_line_of (r : root) (x : loc) : outcome bytes :=
  match nth_error (sources r) (l_src x) with Some s => line_of (s_lex s) (l_start x) | None => Panic end.

(** tck/src/loc.rs:71-85: the same loop, but it stops at the end of the text *)
Fixpoint tck_lines (n : nat) (s : bytes) (line col : nat) : nat * nat :=
  match n, s with
  | O, _ | S _, [] => (line, col)
  | S n', c :: t => if Ascii.eqb c LF then tck_lines n' t (S line) 0 else tck_lines n' t line (S col)
  end.
(** tck/src/loc.rs:23-26, 45-57: the span's start is one-based, its end is the column after the last byte, zero-based *)
Definition from_pos (p : nat) (s : bytes) : nat * nat := tck_lines p s 1 0.
Definition tck_span (start stop : nat) (s : bytes) : (nat * nat) * (nat * nat) :=
  let (line, col) := from_pos start s in ((line, S col), from_pos stop s).

(** diagnostic.rs:3-11; the file is kept as the source's number *)
Record diag := mkDiag { d_line_num : nat; d_line : bytes; d_msg : bytes; d_start : nat; d_width : nat; d_src : nat }.
(** diagnostic.rs:101-111 and 113-123 *)
Definition located_diag (r : root) (msg : bytes) (x : loc) (width : nat) : outcome diag :=
  match root_line_number r x, root_line_of r x with
  | Ret (n, off), Ret line => Ret (mkDiag n line msg off width (l_src x))
  | _, _ => Panic
  end.
Definition err_at (r : root) (msg : bytes) (x : loc) : outcome diag := located_diag r msg x (l_end x - l_start x).
Definition err_token_full (r : root) (msg : bytes) (k : rtok) : outcome diag :=
  located_diag r msg (k_loc k) (length (k_lexeme k)).
(** diagnostic.rs:125-135 *)
Definition err_token_start (r : root) (msg : bytes) (k : rtok) : outcome diag := located_diag r msg (k_loc k) 1.
(** diagnostic.rs:45-56 *)
Definition err_line_of (r : root) (msg : bytes) (x : loc) : outcome diag :=
  match root_line_number r x, root_line_of r x with
  | Ret (n, _), Ret line => Ret (mkDiag n line msg 0 (length line) (l_src x))
  | _, _ => Panic
  end.
(** diagnostic.rs:74-99 *)
Definition err_at_pattern (r : root) (msg : bytes) (x : loc) (pattern : bytes) : outcome diag :=
  match root_line_number r x, root_line_of r x with
  | Ret (n, _), Ret line =>
      Ret (match find_sub pattern line with
           | Some i => mkDiag n line msg i (length pattern) (l_src x)
           | None => mkDiag n line msg 0 (length line) (l_src x)
           end)
  | _, _ => Panic
  end.
(** diagnostic.rs:14-26: the line's own text instead of the source's *)
Definition err_line (r : root) (msg : bytes) (line : list rtok) : outcome diag :=
  match line with
  | [] => Panic
  | k :: _ =>
      match root_line_number r (k_loc k) with
      | Panic => Panic
      | Ret (n, off) => let text := concat (map k_lexeme line) in Ret (mkDiag n text msg off (length text) (l_src (k_loc k)))
      end
  end.
(** root_lexer.rs:281-287 *)
Definition reline (by_ : nat) (d : diag) : diag :=
  mkDiag (d_line_num d + by_) (d_line d) (d_msg d) (d_start d) (d_width d) (d_src d).

(** A parse as far as diagnostics go: it ends, or reports a problem (through [?]: the rest runs only if reporting answers Ok), or
    parses an AsciiDoc table cell with a parser of its own (parse_table.rs:218-251) whose diagnostics are shifted by some lines. *)
Inductive parse := Finish | Report (d : diag) (k : parse) | Cell (by_ : nat) (sub k : parse).
(** diagnostic.rs:155-163: strict fails, lenient records; [Some d] is [Err d] *)
Definition handle_err (strict : bool) (d : diag) (errors : list diag) : option diag * list diag :=
  if strict then (Some d, errors) else (None, errors ++ [d]).
Fixpoint run_parse (strict : bool) (p : parse) (errors : list diag) : option diag * list diag :=
  match p with
  | Finish => (None, errors)
  | Report d k =>
      match handle_err strict d errors with
      | (Some e, errs) => (Some e, errs)
      | (None, errs) => run_parse strict k errs
      end
  | Cell by_ sub k =>
      match run_parse strict sub [] with
      | (None, warnings) => run_parse strict k (errors ++ map (reline by_) warnings)
      | (Some e, _) =>
          (* [parse] turned the diagnostic into a one-element vector (parser.rs:431-435) *)
          if strict then (Some (reline by_ e), errors) else run_parse strict k (errors ++ [reline by_ e])
      end
  end.
(** parser.rs:258-289: what the caller gets, [inl] the warnings of a successful parse, [inr] the diagnostics of a failed one *)
Definition parse_result (strict : bool) (p : parse) : list diag + list diag :=
  match run_parse strict p [] with (None, errors) => inl errors | (Some e, _) => inr [e] end.

(** diagnostic.rs:185-216, without colours; [name] is the file name *)
Definition line_num_pad (n : nat) : nat :=
  if n <? 10 then 4 else if n <? 100 then 5 else if n <? 1000 then 6 else if (N.of_nat n <? 10000)%N then 7 else 8.
Definition spaces (n : nat) : bytes := repeat " "%char n.
Definition plain_text (name : bytes) (d : diag) : bytes :=
  let pad := line_num_pad (d_line_num d) in
  spaces (pad - 3) ++ $"--> " ++ name ++ $":" ++ b (dec (d_line_num d)) ++ $":" ++ b (dec (d_start d + 1)) ++ [LF] ++
  spaces (pad - 2) ++ $"|" ++ [LF] ++
  b (dec (d_line_num d)) ++ $" " ++ $"|" ++ $" " ++ d_line d ++ [LF] ++
  spaces (pad - 2) ++ $"|" ++ $" " ++ spaces (d_start d) ++ repeat "^"%char (d_width d) ++ $" " ++ d_msg d ++ [LF].
