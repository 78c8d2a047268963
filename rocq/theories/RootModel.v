(** Model of parser/src/lexer/root_lexer.rs: the stack of sources behind the parser, its lookahead, the temporary buffer,
    and the depth check of include directives. *)
From Verif Require Import Base Utf8 LexerModel.

(** ast/src/source_location.rs:3-8 *)
Record loc := mkLoc { l_start : nat; l_end : nat; l_src : nat }.
(** parser/src/token.rs Token (without the attr_replacement flag) *)
Record rtok := mkRtok { k_kind : kind; k_lexeme : bytes; k_loc : loc }.
(** root_lexer.rs:17-22 *)
Inductive bufloc := Repeat (l : loc) | Offset (n : nat) | From (l : loc).
(** A source: its lexer and its [max_include_depth] (source_lexer.rs:7-16; file name and leveloffset are not modelled). *)
Record source := mkSource { s_lex : lexer; s_max : option nat }.
(** root_lexer.rs:6-15; [stack] has the top first. *)
Record root := mkRoot {
  idx : nat; next_idx : option nat; stack : list nat; sources : list source; tmp : option (lexer * bufloc) }.

(** root_lexer.rs:25-35 *)
Definition new_root (s : bytes) : root := mkRoot 0 None [] [mkSource (from_bytes s) None] None.

(** the u16 casts of root_lexer.rs:103 *)
Definition to_u16 (n : nat) : nat := N.to_nat (N.of_nat n mod 65536).
(** root_lexer.rs:83-106. [sources.len() as u16 - 1] panics when the truncated length is 0. *)
Definition push_source (s : bytes) (max : option nat) (r : root) : outcome root :=
  let s' := if is (last (map Some s) None) LF then s else s ++ [LF] in
  let srcs := sources r ++ [mkSource (from_bytes s') max] in
  let len16 := to_u16 (length srcs) in
  if len16 =? 0 then Panic
  else Ret (mkRoot (idx r) (Some (len16 - 1)) (stack r) srcs (tmp r)).

(** root_lexer.rs:108-110 *)
Definition set_tmp_buf (s : bytes) (l : bufloc) (r : root) : root :=
  mkRoot (idx r) (next_idx r) (stack r) (sources r) (Some (from_bytes s, l)).

(** source_lexer.rs:131-133, 139-141 *)
Definition lex_peek (l : lexer) : option ascii := nth_error (src l) (pos l).
Definition lex_eof (l : lexer) : bool := pos l =? length (src l).
Definition source_peek (r : root) (i : nat) : outcome (option ascii) :=
  match nth_error (sources r) i with Some s => Ret (lex_peek (s_lex s)) | None => Panic end.

(** root_lexer.rs:186-205 *)
Definition peek (r : root) : outcome (option ascii) :=
  match tmp r with
  | Some (l, _) => Ret (lex_peek l)
  | None =>
      match next_idx r with
      | Some n => source_peek r n
      | None =>
          match source_peek r (idx r) with
          | Panic => Panic
          | Ret (Some c) => Ret (Some c)
          | Ret None => match stack r with j :: _ => source_peek r j | [] => Ret None end
          end
      end
  end.
(** root_lexer.rs:260-266 *)
Definition is_eof (r : root) : outcome bool :=
  match peek r with Panic => Panic | Ret None => Ret true | Ret (Some _) => Ret false end.
Definition peek_is (c : ascii) (r : root) : outcome bool :=
  match peek r with Panic => Panic | Ret o => Ret (is o c) end.
(** root_lexer.rs:173-175 *)
Definition at_newline (r : root) : outcome bool :=
  match peek r with Panic => Panic | Ret o => Ret (is o LF || is o CR) end.

(** root_lexer.rs:224-229 *)
Definition maybe_advance_source (r : root) : root :=
  match next_idx r with
  | Some n => mkRoot n None (idx r :: stack r) (sources r) (tmp r)
  | None => r
  end.

Fixpoint set_nth {A} (n : nat) (x : A) (l : list A) : list A :=
  match n, l with
  | _, [] => []
  | O, _ :: r => x :: r
  | S n', y :: r => y :: set_nth n' x r
  end.
Definition set_lex (i : nat) (l : lexer) (srcs : list source) : list source :=
  match nth_error srcs i with Some s => set_nth i (mkSource l (s_max s)) srcs | None => srcs end.
Definition move (n : nat) (l : lexer) : lexer := mkLexer (src l) (pos l + n) (offset l).

(** root_lexer.rs:215-221, the recursion over the stack *)
Fixpoint skip_from (i : nat) (st : list nat) (srcs : list source) : outcome (nat * list nat * list source) :=
  match nth_error srcs i with
  | None => Panic
  | Some s =>
      match lex_peek (s_lex s) with
      | Some _ => Ret (i, st, set_lex i (move 1 (s_lex s)) srcs)
      | None => match st with j :: st' => skip_from j st' srcs | [] => Ret (i, [], srcs) end
      end
  end.
(** root_lexer.rs:207-222 *)
Definition skip_byte (r : root) : outcome root :=
  match tmp r with
  | Some (l, b) =>
      let l' := move 1 l in
      Ret (mkRoot (idx r) (next_idx r) (stack r) (sources r) (if lex_eof l' then None else Some (l', b)))
  | None =>
      let r := maybe_advance_source r in
      match skip_from (idx r) (stack r) (sources r) with
      | Panic => Panic
      | Ret (i, st, srcs) => Ret (mkRoot i None st srcs None)
      end
  end.
(** root_lexer.rs:177-184 *)
Definition skip_if (c : ascii) (r : root) : outcome root :=
  match peek_is c r with Panic => Panic | Ret true => skip_byte r | Ret false => Ret r end.
Definition skip_newline (r : root) : outcome root :=
  match skip_if CR r with Panic => Panic | Ret r => skip_if LF r end.

(** source_lexer.rs:152-156: skips every CR and LF byte that comes next *)
Definition lex_consume_empty_lines (l : lexer) : lexer := move (run (fun c => mem c [LF; CR]) (rest l)) l.
(** root_lexer.rs:231-240 *)
Fixpoint consume_from (i : nat) (st : list nat) (srcs : list source) : outcome (nat * list nat * list source) :=
  match nth_error srcs i with
  | None => Panic
  | Some s =>
      let l := lex_consume_empty_lines (s_lex s) in
      let srcs' := set_lex i l srcs in
      if lex_eof l then match st with j :: st' => consume_from j st' srcs' | [] => Ret (i, [], srcs') end
      else Ret (i, st, srcs')
  end.
Definition consume_empty_lines (r : root) : outcome root :=
  let r := maybe_advance_source r in
  match consume_from (idx r) (stack r) (sources r) with
  | Panic => Panic
  | Ret (i, st, srcs) => Ret (mkRoot i None st srcs (tmp r))
  end.

(** root_lexer.rs:309-323. The end-of-input token's location is taken after the position has moved on. *)
Definition located (i : nat) (t : token) : rtok := mkRtok (t_kind t) (t_lexeme t) (mkLoc (t_start t) (t_end t) i).
Fixpoint read_from (plugins : list bytes) (i : nat) (st : list nat) (srcs : list source)
  : outcome (rtok * (nat * list nat * list source)) :=
  match nth_error srcs i with
  | None => Panic
  | Some s =>
      match next_token plugins (s_lex s) with
      | Panic => Panic
      | Ret (Some t, l) => Ret (located i t, (i, st, set_lex i l srcs))
      | Ret (None, l) =>
          let srcs' := set_lex i l srcs in
          match st with
          | j :: st' => read_from plugins j st' srcs'
          | [] => Ret (mkRtok Eof [] (mkLoc (pos l) (pos l) i), (i, [], srcs'))
          end
      end
  end.
(** root_lexer.rs:293-303: where a token of the temporary buffer says it comes from (0 is [TMP_DEPTH]) *)
Definition relocate (b : bufloc) (t : token) : rtok :=
  mkRtok (t_kind t) (t_lexeme t)
    match b with
    | Repeat l => l
    | Offset n => mkLoc (t_start t + n) (t_end t + n) 0
    | From l => mkLoc (l_start l + t_start t) (l_start l + t_end t) (l_src l)
    end.
(** root_lexer.rs:289-323. The temporary buffer's lexer knows no plugin macros (from_str, source_lexer.rs:38-54). *)
Definition next_tok (plugins : list bytes) (r : root) : outcome (rtok * root) :=
  let from_sources (t : option (lexer * bufloc)) :=
    let r := maybe_advance_source r in
    match read_from plugins (idx r) (stack r) (sources r) with
    | Panic => Panic
    | Ret (k, (i, st, srcs)) => Ret (k, mkRoot i None st srcs t)
    end in
  match tmp r with
  | Some (l, b) =>
      match next_token [] l with
      | Panic => Panic
      | Ret (Some t, l') =>
          Ret (relocate b t, mkRoot (idx r) (next_idx r) (stack r) (sources r) (if lex_eof l' then None else Some (l', b)))
      | Ret (None, l') => from_sources (Some (l', b))
      end
  | None => from_sources None
  end.

(** root_lexer.rs:251-258 *)
Definition root_at_delimiter_line (r : root) : outcome (option (nat * ascii)) :=
  let at_ i := match nth_error (sources r) i with
               | Some s => Ret (at_delimiter_line (at_line_start (s_lex s)) (rest (s_lex s))) | None => Panic end in
  match nth_error (sources r) (idx r) with
  | None => Panic
  | Some s => if lex_eof (s_lex s) then match stack r with j :: _ => at_ j | [] => at_ (idx r) end else at_ (idx r)
  end.

(** root_lexer.rs:333-341: the limit of the last source that has one, and that source's number *)
Fixpoint last_limit (i : nat) (srcs : list source) (acc : option (nat * nat)) : option (nat * nat) :=
  match srcs with
  | [] => acc
  | s :: t => last_limit (S i) t (match s_max s with Some d => Some (d, i) | None => acc end)
  end.
Definition max_include_depth (r : root) : option (nat * nat) := last_limit 0 (sources r) None.
(** process_includes.rs:226-237; [limit] is the job's max-include-depth. The sum is u16 arithmetic: with overflow checks
    ([checked]) it panics, without it wraps. *)
Definition exceeded (checked : bool) (limit : nat) (r : root) : outcome (option nat) :=
  let (rel, base) := match max_include_depth r with Some p => p | None => (limit, 0) end in
  if checked && (65535 <? N.of_nat (rel + base))%N then Panic
  else
    let abs := Nat.min (to_u16 (rel + base)) limit in
    Ret (if abs <? idx r + 1 then Some rel else None).

(** What is left to read: of the temporary buffer and of all sources. Only used as fuel for the loop below. *)
Definition left_in (l : lexer) : nat := length (rest l).
Definition left_over (r : root) : nat :=
  match tmp r with Some (l, _) => left_in l | None => 0 end + list_sum (map (fun s => left_in (s_lex s)) (sources r)).
(** parser.rs:119-134, without attribute definitions and references: [while !at_newline && !is_eof { next_token }] *)
Fixpoint read_tokens (plugins : list bytes) (fuel : nat) (r : root) : outcome (list rtok * root) :=
  match fuel with
  | O => Panic
  | S f =>
      match at_newline r, is_eof r with
      | Ret false, Ret false =>
          match next_tok plugins r with
          | Panic => Panic
          | Ret (k, r') => match read_tokens plugins f r' with Panic => Panic | Ret (ks, r'') => Ret (k :: ks, r'') end
          end
      | Panic, _ | _, Panic => Panic
      | _, _ => Ret ([], r)
      end
  end.
(** parser.rs:108-135 *)
Definition read_line (plugins : list bytes) (r : root) : outcome (option (list rtok) * root) :=
  match is_eof r with
  | Panic => Panic
  | Ret true => Ret (None, r)
  | Ret false =>
      match read_tokens plugins (S (left_over r)) r with
      | Panic => Panic
      | Ret (ks, r') => match skip_newline r' with Panic => Panic | Ret r'' => Ret (Some ks, r'') end
      end
  end.

(** What an include directive does to the lexer once its file has been resolved (process_includes.rs:46-108): nothing when the
    depth is exceeded (the line stays), otherwise its text is pushed. *)
Definition try_include (checked : bool) (limit : nat) (s : bytes) (depth : option nat) (r : root) : outcome root :=
  match exceeded checked limit r with
  | Panic => Panic
  | Ret (Some _) => Ret r
  | Ret None => push_source s depth r
  end.

(** Pulling lines out of a document. [world] decides, from everything read so far, whether the line just read is an include
    directive and what the file it names contains (and its depth= attribute), and whether blank lines are skipped before the next
    line (parser.rs:161; they always are when there seemed to be nothing left). The answer [None] means [fuel] was too small. *)
Record reply := mkReply { rp_include : option (bytes * option nat); rp_skip_blank : bool }.
Definition world := list (list rtok) -> reply.
Fixpoint pull (checked : bool) (limit : nat) (w : world) (plugins : list bytes) (fuel : nat) (blank : bool)
    (seen : list (list rtok)) (r : root) : outcome (option (list (list rtok) * root)) :=
  match fuel with
  | O => Ret None
  | S f =>
      match (if blank then consume_empty_lines r else Ret r) with
      | Panic => Panic
      | Ret r =>
          match read_line plugins r with
          | Panic => Panic
          | Ret (None, r) => if blank then Ret (Some (seen, r)) else pull checked limit w plugins f true seen r
          | Ret (Some line, r) =>
              let seen' := seen ++ [line] in
              match (match rp_include (w seen') with
                     | Some (s, d) => try_include checked limit s d r
                     | None => Ret r
                     end) with
              | Panic => Panic
              | Ret r => pull checked limit w plugins f (rp_skip_blank (w seen')) seen' r
              end
          end
      end
  end.
