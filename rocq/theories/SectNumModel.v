(** Model of section numbering in the HTML backends: backend/src/html/backend.rs:186-191, 452-547, 659-729, 748-752. *)
From Verif Require Import Base.
Open Scope string_scope. Open Scope nat_scope.

(** Special sections: appendices, others the document type supports, and others (core/src/doctype.rs:47-70) *)
Inductive special := Appendix | Supported | Unsupported.
(** the attribute sectnums: unset or false, true, "all"; sectnumlevels (isize: here an integer); partnums *)
Inductive sectnums := Off | On | All.
Record config := mkConf { numbers : sectnums; num_levels : Z; part_nums : bool }.
(** BackendState (backend.rs:14-27): section_nums, appendix_caption_num, book_part_num, EphemeralState::InAppendix. Simplification: counters
    do not overflow. *)
Record state := mkSt { nums : list nat; caption_num : nat; part_num : nat; in_appendix : bool }.
Definition fresh_state : state := mkSt [0; 0; 0; 0; 0] 0 0 false.
Definition zeros : list nat := [0; 0; 0; 0; 0].

Definition letter (n : nat) : string := String (ascii_of_nat ((65 + n) mod 256)) EmptyString.
(** backend.rs:452-466 without the words of appendix-caption *)
Definition push_appendix_caption (s : state) : state * string :=
  (mkSt (nums s) (S (caption_num s)) (part_num s) (in_appendix s), letter (caption_num s) ++ ": ").
(** backend.rs:481-491 *)
Fixpoint number_text (first_letter : bool) (ns : list nat) : string :=
  match ns with
  | [] => " "
  | n :: r => (if first_letter then letter n else dec n) ++ "." ++ number_text false r
  end.
(** backend.rs:468-494. [level - 1] is no index for level 0 and for levels above 5. *)
Definition push_section_number_prefix (level : nat) (s : state) : outcome (state * string) :=
  match level with
  | O => Panic
  | S idx =>
      if 5 <=? idx then Panic
      else
        let ns := (firstn idx (nums s) ++ S (nth idx (nums s) 0) :: repeat 0 (4 - idx))%list in
        Ret (mkSt ns (caption_num s) (part_num s) (in_appendix s), number_text (in_appendix s) (firstn level ns))
  end.
(** backend.rs:508-528 *)
Definition should_number_section (c : config) (level : nat) (sp : option special) : bool :=
  if (num_levels c <? Z.of_nat level)%Z then false
  else
    match numbers c with
    | All => true
    | On => match sp with Some Unsupported => false | _ => true end
    | Off => false
    end.
(** backend.rs:496-506 without chapter-signifier *)
Definition push_section_heading_prefix (c : config) (level : nat) (sp : option special) (s : state) : outcome (state * string) :=
  if should_number_section c level sp then push_section_number_prefix level s else Ret (s, "").
(** backend.rs:530-547; the numeral itself is left as the number *)
Definition push_part_prefix (c : config) (s : state) : state * string :=
  if part_nums c then (mkSt (nums s) (caption_num s) (S (part_num s)) (in_appendix s), "Part " ++ dec (S (part_num s)) ++ ": ") else (s, "").

Definition is_appendix (sp : option special) : bool := match sp with Some Appendix => true | _ => false end.
(** enter_section_state, exit_section_state, exit_toc_node: backend.rs:679-687, 690-726 *)
Definition enter_appendix (sp : option special) (s : state) : state := if is_appendix sp then mkSt zeros (caption_num s) (part_num s) true else s.
Definition exit_appendix (sp : option special) (s : state) : state := if is_appendix sp then mkSt zeros (caption_num s) (part_num s) false else s.
(** backend.rs:748-752 *)
Definition heading (c : config) (level : nat) (sp : option special) (s : state) : outcome (state * string) :=
  if is_appendix sp then Ret (push_appendix_caption s) else push_section_heading_prefix c level sp s.

(** ast/src/toc.rs *)
Inductive tnode := TNode (level : nat) (sp : option special) (children : list tnode).
(** The blocks of a document that matter here: sections, attribute entries, and the table of contents where it is shown. The strings are what is
    printed before each title. *)
Inductive blk := Section (level : nat) (sp : option special) (bs : list blk) | Settings (c : config) | Toc (ns : list tnode) | PartTitle.
Definition bind {A B} (x : outcome A) (f : A -> outcome B) : outcome B := match x with Ret a => f a | Panic => Panic end.
(** eval.rs:702-715 with backend.rs:659-687 *)
Fixpoint toc_node (c : config) (n : tnode) (s : state) : outcome (state * list string) :=
  match n with
  | TNode level sp cs =>
      let s := enter_appendix sp s in
      bind (if is_appendix sp then Ret (push_appendix_caption s) else if level =? 0 then Ret (push_part_prefix c s) else push_section_heading_prefix c level sp s)
        (fun x => bind ((fix go ns s := match ns with [] => Ret (s, []) | m :: r => bind (toc_node c m s) (fun x => bind (go r (fst x)) (fun y => Ret (fst y, (snd x ++ snd y)%list))) end) cs (fst x))
          (fun y => Ret (exit_appendix sp (fst y), snd x :: snd y)))
  end.
Definition toc_nodes (c : config) : list tnode -> state -> outcome (state * list string) :=
  fix go ns s := match ns with [] => Ret (s, []) | m :: r => bind (toc_node c m s) (fun x => bind (go r (fst x)) (fun y => Ret (fst y, (snd x ++ snd y)%list))) end.
(** backend.rs:186-191 *)
Definition on_toc_exit (s : state) : state := mkSt zeros 0 0 (in_appendix s).
(** eval.rs:143-156, 685-700; the config changes on the way *)
Fixpoint block (b : blk) (cs : config * state) : outcome ((config * state) * list string) :=
  match b with
  | Settings c => Ret ((c, snd cs), [])
  | PartTitle => let '(s, t) := push_part_prefix (fst cs) (snd cs) in Ret ((fst cs, s), [t])
  | Toc ns => match ns with [] => Ret (cs, []) | _ => bind (toc_nodes (fst cs) ns (snd cs)) (fun x => Ret ((fst cs, on_toc_exit (fst x)), snd x)) end
  | Section level sp bs =>
      bind (heading (fst cs) level sp (enter_appendix sp (snd cs)))
        (fun x => bind ((fix go bs cs := match bs with [] => Ret (cs, []) | m :: r => bind (block m cs) (fun x => bind (go r (fst x)) (fun y => Ret (fst y, (snd x ++ snd y)%list))) end) bs (fst cs, fst x))
          (fun y => Ret ((fst (fst y), exit_appendix sp (snd (fst y))), snd x :: snd y)))
  end.
Fixpoint blocks (bs : list blk) (cs : config * state) : outcome ((config * state) * list string) :=
  match bs with [] => Ret (cs, []) | m :: r => bind (block m cs) (fun x => bind (blocks r (fst x)) (fun y => Ret (fst y, (snd x ++ snd y)%list))) end.
(** the prefixes of a document *)
Definition document (c : config) (bs : list blk) : outcome (list string) := bind (blocks bs (c, fresh_state)) (fun x => Ret (snd x)).
