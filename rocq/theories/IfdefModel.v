(** Model of the conditional directives: parser/src/tasks/directives/ifdef.rs, the endif half of directives/mod.rs, and the part
    of the line reader (parser.rs:108-154) that acts on them. *)
From Verif Require Import Base Text Utf8 LexerModel RootModel AttrsModel.

(** What the directives ask of the rest of the parser, all of it a parameter of every theorem:
    - [get a n]: the value of attribute [n] (document.meta.get);
    - [upd a l]: the attributes after the ordinary line [l] has been read (attribute entries, parser.rs:129-131);
    - [eval a l]: what try_process_ifeval_directive (directives/ifeval.rs:5-38) answers for the line [l]: [Ret None] when the line is
      passed through, otherwise whether its expression is true (modelled in IfevalModel.v). *)
Record env (A : Type) := mkEnv { get : A -> bytes -> option attr_value; upd : A -> bytes -> A; eval : A -> bytes -> outcome (option bool) }.
Arguments get {A}. Arguments upd {A}. Arguments eval {A}.

(** The messages (ifdef.rs:83, mod.rs:34, mod.rs:39) *)
Inductive report := NeverClosed | NoPreviousIfdef | MismatchedEndif (expected found : bytes).
(** [stk] is ctx.ifdef_stack with the newest entry first. *)
Record pstate (A : Type) := mkP { attrs : A; stk : list bytes; lex : root; reports : list report }.
Arguments mkP {A}. Arguments attrs {A}. Arguments stk {A}. Arguments lex {A}. Arguments reports {A}.

(** line.rs reassemble_src. Simplification: attribute references are not substituted here (see the model of C20), so nothing is
    filtered out. *)
Definition source_of (ks : list rtok) : bytes := concat (map k_lexeme ks).

(** The first [ [ ] of a text: what stands before and behind it. *)
Definition at_bracket (s : bytes) : option (bytes * bytes) := split_once ($"[") s.
(** how many characters a UTF-8 text has *)
Definition chars (s : bytes) : nat := length (filter (fun c => negb (continuation c)) s).
(** regx.rs:30-31 DIRECTIVE_IFDEF behind its directive word: the attribute expression has at
    least two characters, no bracket, and does not end in white space; the rest of the line ends in a closing bracket. *)
Definition ifdef_parts (s : bytes) : option (bytes * bytes) :=
  match at_bracket s with
  | None => None
  | Some (names, r) =>
      if (2 <=? chars names) && negb (existsb (ends_with names) white) && ends_with r ($"]")
      then Some (names, firstn (length r - 1) r) else None
  end.

(** ifdef.rs:33-54 *)
Definition is_set (v : option attr_value) : bool :=
  match v with None => false | Some (AStr _) => true | Some (ABool x) => x end.
Definition names_of (s : bytes) : list bytes := flat_map (split_byte "+"%char) (split_byte ","%char s).
Definition evaluate_ifdef {A} (E : env A) (a : A) (defined : bool) (names : bytes) : bool :=
  let is_any := contains_byte ","%char names in
  let result := fold_left (fun current n =>
    if negb is_any && negb current && defined then false
    else if is_any && current then true
    else is_set (get E a n)) (names_of names) (negb is_any) in
  if defined then result else negb result.

Definition is_directive (k : rtok) : bool := match k_kind k with Directive => true | _ => false end.
(** line.rs:1017-1034, regx.rs:32 DIRECTIVE_ENDIF: at least three tokens, the first of them [endif::], the target behind it
    without white space, then an empty pair of brackets *)
Definition endif_target (ks : list rtok) : option bytes :=
  match ks with
  | k :: _ =>
      if is_directive k && bytes_eqb (k_lexeme k) ($"endif::") && (3 <=? length ks) then
        let r := skipn 7 (source_of ks) in
        if ends_with r ($"[]") then
          let target := firstn (length r - 2) r in
          if existsb (fun w => match find_sub w target with Some _ => true | None => false end) white then None else Some target
        else None
      else None
  | [] => None
  end.

(** ifdef.rs:56-90, up to the call of read_line. [Some true]: the matching endif was found; [Some false]: the input ended first.
    [None]: [fuel] was too small. *)
Definition names_directive (k : rtok) (s : bytes) : bool := is_directive k && bytes_eqb (k_lexeme k) s.
Fixpoint skip_to_endif (plugins : list bytes) (fuel depth : nat) (r : root) : outcome (option (bool * root)) :=
  match fuel with
  | O => Ret None
  | S f =>
      match next_tok plugins r with
      | Panic => Panic
      | Ret (k, r1) =>
          if names_directive k ($"endif::") then
            match read_tokens plugins (S (left_over r1)) r1 with
            | Panic => Panic
            | Ret (ks, r2) =>
                match endif_target (k :: ks) with
                | Some _ =>
                    if depth =? 1 then
                      match skip_newline r2 with Panic => Panic | Ret r3 => Ret (Some (true, r3)) end
                    else skip_to_endif plugins f (depth - 1) r2
                | None => skip_to_endif plugins f depth r2
                end
            end
          else if names_directive k ($"ifdef::") || names_directive k ($"ifndef::") then skip_to_endif plugins f (depth + 1) r1
          else
            match is_eof r1 with
            | Panic => Panic
            | Ret true => Ret (Some (false, r1))
            | Ret false => skip_to_endif plugins f depth r1
            end
      end
  end.

(** What one pass of _read_line (parser.rs:108-154) does: deliver a line, go on with the next, or end. *)
Inductive move_on (A : Type) := Deliver (l : list rtok) (p : pstate A) | Next (p : pstate A) | Over (p : pstate A) | NoFuel.
Arguments Deliver {A}. Arguments Next {A}. Arguments Over {A}. Arguments NoFuel {A}.
Definition start_of (ks : list rtok) : nat := match ks with k :: _ => l_start (k_loc k) | [] => 0 end.

(** ifdef.rs:4-31. [again] is the recursive call of read_line; its [None] is unwrapped. *)
Definition do_ifdef {A} (again : pstate A -> outcome (option (option (list rtok) * pstate A))) (E : env A) (plugins : list bytes)
    (defined : bool) (word : nat) (ks : list rtok) (p : pstate A) : outcome (move_on A) :=
  match ifdef_parts (skipn word (source_of ks)) with
  | None => Ret (Deliver ks p)
  | Some (names, embedded) =>
      let p := mkP (attrs p) (names :: stk p) (lex p) (reports p) in
      match evaluate_ifdef E (attrs p) defined names, embedded with
      | false, [] =>
          match skip_to_endif plugins (S (S (left_over (lex p)))) 1 (lex p) with
          | Panic => Panic
          | Ret None => Ret NoFuel
          | Ret (Some (true, r)) => Ret (Next (mkP (attrs p) (stk p) r (reports p)))
          | Ret (Some (false, r)) => Ret (Over (mkP (attrs p) (stk p) r (reports p ++ [NeverClosed])))
          end
      | false, _ | true, [] => Ret (Next p)
      | true, _ =>
          let r := set_tmp_buf (embedded ++ [LF]) (Offset (start_of ks + word + length names + 1)) (lex p) in
          match again (mkP (attrs p) (stk p) r (reports p)) with
          | Panic => Panic
          | Ret None => Ret NoFuel
          | Ret (Some (None, _)) => Panic
          | Ret (Some (Some l, p')) => Ret (Deliver l p')
          end
      end
  end.

(** mod.rs:24-48. The stack is only looked at, never popped. *)
Definition do_endif {A} (ks : list rtok) (p : pstate A) : outcome (move_on A) :=
  match endif_target ks with
  | None => Ret (Deliver ks p)
  | Some target =>
      match stk p with
      | [] => Ret (Deliver ks (mkP (attrs p) (stk p) (lex p) (reports p ++ [NoPreviousIfdef])))
      | expected :: _ =>
          if match target with [] => false | _ => negb (bytes_eqb expected target) end
          then Ret (Deliver ks (mkP (attrs p) (stk p) (lex p) (reports p ++ [MismatchedEndif expected target])))
          else Ret (Next p)
      end
  end.

(** ifeval.rs:27-37: a true expression pushes a marker, a false one skips like ifdef *)
Definition do_ifeval {A} (E : env A) (plugins : list bytes) (ks : list rtok) (p : pstate A) : outcome (move_on A) :=
  match eval E (attrs p) (source_of ks) with
  | Panic => Panic
  | Ret None => Ret (Deliver ks p)
  | Ret (Some true) => Ret (Next (mkP (attrs p) ($"[ifeval]" :: stk p) (lex p) (reports p)))
  | Ret (Some false) =>
      match skip_to_endif plugins (S (S (left_over (lex p)))) 1 (lex p) with
      | Panic => Panic
      | Ret None => Ret NoFuel
      | Ret (Some (true, r)) => Ret (Next (mkP (attrs p) (stk p) r (reports p)))
      | Ret (Some (false, r)) => Ret (Over (mkP (attrs p) (stk p) r (reports p ++ [NeverClosed])))
      end
  end.

(** parser.rs:108-154, outside block comments. Simplifications: include directives are passed through (they are the subject of
    C07-C13), attribute references are not substituted and no line is dropped. *)
Definition pass {A} (again : pstate A -> outcome (option (option (list rtok) * pstate A))) (E : env A) (plugins : list bytes)
    (p : pstate A) : outcome (move_on A) :=
  match is_eof (lex p) with
  | Panic => Panic
  | Ret true => Ret (Over p)
  | Ret false =>
      match read_tokens plugins (S (left_over (lex p))) (lex p) with
      | Panic => Panic
      | Ret (ks, r1) =>
          match skip_newline r1 with
          | Panic => Panic
          | Ret r2 =>
              let p' := mkP (attrs p) (stk p) r2 (reports p) in
              match ks with
              | k :: _ =>
                  if names_directive k ($"ifdef::") then do_ifdef again E plugins true 7 ks p'
                  else if names_directive k ($"ifndef::") then do_ifdef again E plugins false 8 ks p'
                  else if names_directive k ($"endif::") then do_endif ks p'
                  else if names_directive k ($"ifeval::") then do_ifeval E plugins ks p'
                  else if names_directive k ($"asciidorkinclude::") then Ret (Next p')
                  else Ret (Deliver ks (mkP (upd E (attrs p) (source_of ks)) (stk p) r2 (reports p)))
              | [] => Ret (Deliver ks (mkP (upd E (attrs p) (source_of ks)) (stk p) r2 (reports p)))
              end
          end
      end
  end.
(** [None]: [fuel] was too small *)
Fixpoint next_line {A} (E : env A) (plugins : list bytes) (fuel : nat) (p : pstate A)
  : outcome (option (option (list rtok) * pstate A)) :=
  match fuel with
  | O => Ret None
  | S f =>
      match pass (next_line E plugins f) E plugins p with
      | Panic => Panic
      | Ret (Deliver l p') => Ret (Some (Some l, p'))
      | Ret (Next p') => next_line E plugins f p'
      | Ret (Over p') => Ret (Some (None, p'))
      | Ret NoFuel => Ret None
      end
  end.
(** All lines of a document, one call of read_line after the other. (The parser groups them into blocks, parser.rs:156-215.) *)
Fixpoint all_lines {A} (E : env A) (plugins : list bytes) (fuel : nat) (p : pstate A)
  : outcome (option (list bytes * pstate A)) :=
  match fuel with
  | O => Ret None
  | S f =>
      match next_line E plugins (S (S (left_over (lex p)))) p with
      | Panic => Panic
      | Ret None => Ret None
      | Ret (Some (None, p')) => Ret (Some ([], p'))
      | Ret (Some (Some l, p')) =>
          match all_lines E plugins f p' with
          | Panic => Panic | Ret None => Ret None | Ret (Some (ls, p'')) => Ret (Some (source_of l :: ls, p''))
          end
      end
  end.
Definition read_document {A} (E : env A) (plugins : list bytes) (a : A) (s : bytes) : outcome (option (list bytes * pstate A)) :=
  all_lines E plugins (S (S (length s))) (mkP a [] (new_root s) []).
