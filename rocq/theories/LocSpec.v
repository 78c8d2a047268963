(** What line numbers, columns, line texts and diagnostics should be. *)
From Verif Require Import Base LexerModel LexerSpec RootModel LocModel.

(** Position [p] of text [s] lies on line [line]: [before] is everything up to that line's start, [after] everything from its line
    break (or nothing). *)
Record on_line (s : bytes) (p : nat) (before line after : bytes) : Prop := mkOn {
  on_split : s = before ++ line ++ after;
  on_lo : length before <= p;
  on_hi : p <= length before + length line;
  on_line_break_free : ~ In newline line;
  on_before : before = [] \/ exists x, before = x ++ [newline];
  on_after : after = [] \/ exists x, after = newline :: x }.
Definition newlines (s : bytes) : nat := count_occ Ascii.ascii_dec s newline.
(** [t] is [s] without trailing white space. *)
Definition right_trimmed (s t : bytes) : Prop :=
  exists w, s = t ++ w /\ Forall (fun c => In c [" "%char; ascii_of_nat 9; newline; ascii_of_nat 12; return_]) w /\
    (forall x c, t = x ++ [c] -> ~ In c [" "%char; ascii_of_nat 9; newline; ascii_of_nat 12; return_]).

(** Everything a parse reports, in order, cells' problems with their line numbers shifted. *)
Fixpoint reported (p : parse) : list diag :=
  match p with
  | Finish => []
  | Report d k => d :: reported k
  | Cell n sub k =>
      map (fun d => mkDiag (d_line_num d + n) (d_line d) (d_msg d) (d_start d) (d_width d) (d_src d)) (reported sub) ++ reported k
  end.
