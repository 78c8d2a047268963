(** Model of how the table of contents is built: parser/src/tasks/parse_section.rs:168-216, ast/src/toc.rs *)
From Verif Require Import Base SectionsModel.

(** ast/src/toc.rs:10-17: level and title (here the name), children *)
Inductive node := Node (level name : nat) (children : list node).
Definition n_level (n : node) : nat := match n with Node l _ _ => l end.
Definition n_children (n : node) : list node := match n with Node _ _ cs => cs end.
(** nodes.last_mut().unwrap() *)
Fixpoint on_last (f : node -> outcome node) (ns : list node) : outcome (list node) :=
  match ns with
  | [] => Panic
  | [n] => match f n with Ret m => Ret [m] | Panic => Panic end
  | n :: r => match on_last f r with Ret r' => Ret (n :: r') | Panic => Panic end
  end.
(** parse_section.rs:210-215: [k] times into the children of the last node, then push *)
Fixpoint push_at (k : nat) (x : node) (ns : list node) : outcome (list node) :=
  match k with
  | O => Ret (ns ++ [x])
  | S k' => on_last (fun n => match n with Node l m cs => match push_at k' x cs with Ret cs' => Ret (Node l m cs') | Panic => Panic end end) ns
  end.
Definition last_node (ns : list node) : option node := hd_error (rev ns).
(** parse_section.rs:168-216. Simplification: [toclevels] is a number given for the whole document. *)
Definition push_toc_node (toclevels authored semantic name : nat) (ns : list node) : outcome (list node) :=
  if toclevels <? authored then Ret ns
  else
    let x := Node authored name [] in
    match last_node ns with
    | None => Ret (ns ++ [x])
    | Some top =>
        if (authored <? n_level top) || (authored =? 0) then Ret (ns ++ [x])
        else
          let depth := if (n_level top =? 0) && (semantic =? 2) && negb (existsb (fun n => n_level n =? 1) (n_children top)) then 1 else semantic in
          push_at (depth - n_level top) x ns
    end.
Fixpoint build_toc (toclevels : nat) (ns : list node) (es : list event) : outcome (list node) :=
  match es with
  | [] => Ret ns
  | TocEntry a s n :: r => match push_toc_node toclevels a s n ns with Ret ns' => build_toc toclevels ns' r | Panic => Panic end
  | _ :: r => build_toc toclevels ns r
  end.
(** parsing a document that has a table of contents *)
Definition parse_with_toc (toclevels : nat) (book : bool) (cs : list chunk) : option (outcome (content * list node)) :=
  match parse_content book cs with
  | None => None
  | Some Panic => Some Panic
  | Some (Ret x) => match build_toc toclevels [] (evs x) with Ret ns => Some (Ret (val x, ns)) | Panic => Some Panic end
  end.
