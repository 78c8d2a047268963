(** Model of include::[indent=]: parser/src/tasks/directives/includes/process_includes.rs:220-224 and 240-271. *)
From Verif Require Import Base Text LexerModel LinesModel.

(** [line.iter().take_while(|c| c == b' ').count()] *)
Fixpoint line_indent (l : bytes) : nat := match l with c :: r => if Ascii.eqb c " " then S (line_indent r) else 0 | [] => 0 end.
(** process_includes.rs:245-256 *)
Fixpoint min_indent (acc : option nat) (ls : list bytes) : option nat :=
  match ls with
  | [] => acc
  | l :: r =>
      if bytes_eqb l marker then min_indent acc r
      else min_indent (Some (match acc with Some n => Nat.min n (line_indent l) | None => line_indent l end)) r
  end.
(** process_includes.rs:262-269, one line. The sum cannot overflow for an indent that fits in memory. *)
Definition reindent (m n : nat) (l : bytes) : bytes :=
  let k := line_indent l in if m <=? k then repeat " "%char (k - m + n) ++ skipn k l ++ [LF] else [].
(** process_includes.rs:240-271 *)
Definition set_indentation (n : nat) (buf : bytes) : bytes :=
  let trimmed := if is (last (map Some buf) None) LF then removelast buf else buf in
  match min_indent None (split_byte LF trimmed) with
  | None => buf
  | Some m => if n =? m then buf else removelast (concat (map (reindent m n) (split_byte LF buf)))
  end.
(** process_includes.rs:220-224; [None]: no such attribute *)
Definition set_include_indentation (attr : option bytes) (buf : bytes) : bytes :=
  match attr with
  | None => buf
  | Some s => match parse_usize s with Some n => set_indentation (N.to_nat n) buf | None => buf end
  end.
