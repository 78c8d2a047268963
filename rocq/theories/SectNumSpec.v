(** What section numbers should be, on the flat sequence of headings. *)
From Verif Require Import Base SectNumModel.
Open Scope string_scope. Open Scope nat_scope.

(** [count k before]: the headings of level [k] since the last heading of a smaller level. The latest heading is first in [before]. *)
Fixpoint count (k : nat) (before : list nat) : nat :=
  match before with
  | [] => 0
  | l :: r => if l <? k then 0 else if l =? k then S (count k r) else count k r
  end.
(** a heading of level [l] has [l] numbers *)
Definition path (l : nat) (before : list nat) : list nat := map (fun k => count k before) (seq 1 l).
(** the numbers of a sequence of numbered headings *)
Fixpoint paths (before : list nat) (ls : list nat) : list (list nat) :=
  match ls with [] => [] | l :: r => path l (l :: before) :: paths (l :: before) r end.
Definition written (p : list nat) : string := fold_right (fun n s => dec n ++ "." ++ s) " " p.

(** sections and settings in the order of the source *)
Fixpoint flat (b : blk) : list blk := match b with Section l sp bs => Section l sp [] :: flat_map flat bs | _ => [b] end.
(** for each heading whether it is numbered *)
Fixpoint marks (c : config) (bs : list blk) : list (nat * bool) :=
  match bs with
  | [] => []
  | Section l sp _ :: r => (l, should_number_section c l sp) :: marks c r
  | Settings c' :: r => marks c' r
  | _ :: r => marks c r
  end.
Definition numbered_levels (ms : list (nat * bool)) : list nat := map fst (filter snd ms).
(** what is written before each title *)
Fixpoint prefixes (before : list nat) (ms : list (nat * bool)) : list string :=
  match ms with
  | [] => []
  | (l, true) :: r => written (path l (l :: before)) :: prefixes (l :: before) r
  | (_, false) :: r => "" :: prefixes before r
  end.
(** documents of ordinary sections: no appendix, no table of contents in the body, no parts; numbered levels are 1 to 5 *)
Fixpoint ordinary (b : blk) : bool := match b with Section _ sp bs => negb (is_appendix sp) && forallb ordinary bs | Settings _ => true | _ => false end.
Definition numberable (ms : list (nat * bool)) : Prop := Forall (fun m => snd m = true -> 1 <= fst m <= 5) ms.
(** the headings of a table of contents *)
Fixpoint toc_levels (n : tnode) : list (nat * option special) := match n with TNode l sp cs => (l, sp) :: flat_map toc_levels cs end.
Definition toc_marks (c : config) (ns : list tnode) : list (nat * bool) := map (fun x => (fst x, should_number_section c (fst x) (snd x))) (flat_map toc_levels ns).
Fixpoint ordinary_node (n : tnode) : bool := match n with TNode l sp cs => negb (is_appendix sp) && (1 <=? l) && forallb ordinary_node cs end.
