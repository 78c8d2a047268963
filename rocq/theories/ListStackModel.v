(** Model of list nesting: parser/src/list_context.rs, parser/src/tasks/parse_list.rs:5-88, 120-165. *)
From Verif Require Import Base.

(** ast/src/list.rs:75-89. u8 and u16 as numbers *)
Inductive marker := Dot (n : nat) | Digits (n : nat) | Dash | Star (n : nat) | Colons (n : nat) | SemiColons | Callout (n : option nat).
(** the derived PartialEq *)
Definition opt_eqb (x y : option nat) : bool := match x, y with Some a, Some b => a =? b | None, None => true | _, _ => false end.
Definition marker_eqb (x y : marker) : bool :=
  match x, y with
  | Dot a, Dot b => a =? b | Digits a, Digits b => a =? b | Dash, Dash => true | Star a, Star b => a =? b
  | Colons a, Colons b => a =? b | SemiColons, SemiColons => true | Callout a, Callout b => opt_eqb a b
  | _, _ => false
  end.
Definition is_digits (m : marker) : bool := match m with Digits _ => true | _ => false end.
Definition is_callout (m : marker) : bool := match m with Callout _ => true | _ => false end.
(** list_context.rs:12: a stack of markers; here the innermost list is the first element *)
Definition stack := list marker.
(** list_context.rs:15-29 *)
Definition starts_nested_list (s : stack) (next : marker) : bool :=
  match s with
  | [] => false
  | _ => match next with
         | Digits _ => forallb (fun m => negb (is_digits m)) s
         | Callout _ => forallb (fun m => negb (is_callout m)) s
         | _ => negb (existsb (marker_eqb next) s)
         end
  end.
(** list_context.rs:31-37 *)
Definition continues_current_list (s : stack) (next : marker) : bool :=
  match s with
  | last :: _ => match last, next with Digits _, Digits _ => true | Callout _, Callout _ => true | _, _ => marker_eqb last next end
  | [] => false
  end.
(** list_context.rs:39-41: [as u8] *)
Definition depth_u8 (s : stack) : nat := length s mod 256.
(** line.rs:784, 796: the number of dots or stars [as u8] *)
Definition dots (n : nat) : marker := Dot (n mod 256).
Definition stars (n : nat) : marker := Star (n mod 256).

(** What read_lines gives: a group of contiguous lines. Only two kinds: a group of lines that are list items, each with one line, and anything that is no
    list item and ends all lists. Comments, continuations, attribute lines and description lists are not modelled. *)
Inductive group := Items (ms : list marker) | Other (n : nat).
(** an item and the list nested in it; no list if there are no items *)
Inductive item := Item (m : marker) (sub : list item).
(** restore_lines: lines of a group that are left *)
Definition restore (ms : list marker) (rest : list group) : list group := match ms with [] => rest | _ => Items ms :: rest end.

(** parse_list.rs:18-36, the loop over parse_list_item (53-118) with [s] the stack after the push in line 18; and parse_list_item_blocks (128-164). The
    principal text of the item, its blocks other than lists and the numbers of callouts are left out. *)
Fixpoint parse_items (fuel : nat) (s : stack) (input : list group) : list item * list group :=
  match fuel with
  | O => ([], input)
  | S f =>
      match input with
      | Items (m :: ms) :: rest =>
          if continues_current_list s m then
            let '(sub, input1) :=
              match ms with
              | m2 :: _ =>
                  (* 133-139: the lines of the group that follow; parse_block calls parse_list *)
                  if starts_nested_list s m2 then parse_items f (m2 :: s) (Items ms :: rest) else ([], restore ms rest)
              | [] =>
                  (* 151-163: the next group *)
                  match rest with
                  | Items (m2 :: ms2) :: rest2 => if starts_nested_list s m2 then parse_items f (m2 :: s) (Items (m2 :: ms2) :: rest2) else ([], rest)
                  | _ => ([], rest)
                  end
              end in
            let '(items, input2) := parse_items f s input1 in
            (Item m sub :: items, input2)
          else ([], input)
      | _ => ([], input)
      end
  end.
(** parse_list.rs:5-36 for a list that is not nested, and the loop over the blocks of the document *)
Inductive block := BList (items : list item) | BOther (n : nat).
Fixpoint parse_blocks (fuel : nat) (input : list group) : list block :=
  match fuel with
  | O => []
  | S f =>
      match input with
      | [] => []
      | Other n :: rest => BOther n :: parse_blocks f rest
      | Items [] :: rest => parse_blocks f rest
      | Items (m :: ms) :: rest => let '(items, input1) := parse_items f [m] (Items (m :: ms) :: rest) in BList items :: parse_blocks f input1
      end
  end.
Definition count (input : list group) : nat := fold_right (fun g n => match g with Items ms => S (length ms) | Other _ => 1 end + n) 0 input.
Definition parse (input : list group) : list block := parse_blocks (S (count input)) input.
