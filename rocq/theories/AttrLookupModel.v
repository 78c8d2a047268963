(** What a block's attribute lists answer when they are asked: ast/src/attr_list.rs, multi_attr_list.rs and
    priority_attr_list.rs.  Source locations are left out, and with them [named_with_loc], which differs from [named] only
    in the location it adds. *)
From Coq Require Import List Bool Arith.
From Verif Require Import Base.
From Verif Require BlockModel.
Import ListNotations.

(** ast/src/inline.rs: a text, or any other inline node, of which the lists ask nothing *)
Inductive piece := Word (x : bytes) | Markup.
Definition value := list piece.
(** ast/src/attr_list.rs:4-12 and 200-201 *)
Record attr_list := AttrList { positional : list (option value); named : list (bytes * value); id : option bytes; roles : list bytes; options : list bytes }.
(** ast/src/inline_nodes.rs:112-121 *)
Definition single_text (v : value) : option bytes := match v with [Word x] => Some x | _ => None end.
(** the iterators of the Rust library: find_map, and or_else on options *)
Fixpoint find_map {A B} (f : A -> option B) (l : list A) : option B :=
  match l with [] => None | x :: r => match f x with Some y => Some y | None => find_map f r end end.
Definition or_else {B} (x y : option B) : option B := match x with Some _ => x | None => y end.
Definition is_none {A} (o : option A) : bool := match o with None => true | Some _ => false end.
Definition is_nil {A} (l : list A) : bool := match l with [] => true | _ => false end.
Definition is_text (o : option bytes) (x : bytes) : bool := match o with Some y => bytes_eqb y x | None => false end.

(** ** One list: ast/src/attr_list.rs *)
(** lines 34-36 *)
Definition roles1 (a : attr_list) : list bytes := filter (fun s => negb (is_nil s)) (roles a).
(** lines 42-48 *)
Definition is_empty1 (a : attr_list) : bool := is_nil (positional a) && is_nil (named a) && is_none (id a) && is_nil (roles a) && is_nil (options a).
(** lines 50-55 *)
Definition str_positional1 (n : nat) (a : attr_list) : option bytes :=
  match nth_error (positional a) n with Some (Some v) => single_text v | _ => None end.
(** lines 57-59 *)
Definition positional1 (n : nat) (a : attr_list) : option value :=
  match nth_error (positional a) n with Some o => o | None => None end.
(** lines 61-63 *)
Definition has_option1 (x : bytes) (a : attr_list) : bool := existsb (fun s => bytes_eqb s x) (options a).
(** lines 65-71 *)
Definition has_str_positional1 (x : bytes) (a : attr_list) : bool :=
  existsb (fun i => is_text (str_positional1 i a) x) (seq 0 (length (positional a))).
(** lines 78, 91: neither an id nor roles nor options *)
Definition bare (a : attr_list) : bool := is_none (id a) && is_nil (roles a) && is_nil (options a).
(** lines 85-98 *)
Definition source_language1 (a : attr_list) : option bytes :=
  match str_positional1 0 a, str_positional1 1 a with
  | None, Some lang => Some lang
  | None, None => None
  | Some pos, second =>
      match (if bytes_eqb pos $"source" then second else None) with
      | Some lang => Some lang
      | None => if bytes_eqb pos $"listing" then None else if bare a then None else Some pos
      end
  end.
(** lines 73-83 *)
Definition is_source1 (a : attr_list) : bool :=
  if is_text (str_positional1 0 a) $"source" || negb (is_none (source_language1 a)) then true
  else if bare a then false
  else match str_positional1 0 a with None => false | Some x => negb (bytes_eqb x $"listing") end.
(** lines 100-102 *)
Definition has_role1 (x : bytes) (a : attr_list) : bool := existsb (fun s => bytes_eqb s x) (roles a).
(** lines 124-126 and 216-221 *)
Definition named_nodes1 (key : bytes) (a : attr_list) : option value :=
  find_map (fun p => if bytes_eqb (fst p) key then Some (snd p) else None) (named a).
(** lines 104-109 *)
Definition named1 (key : bytes) (a : attr_list) : option bytes :=
  match named_nodes1 key a with None => None | Some [] => Some [] | Some v => single_text v end.
(** lines 149-161 *)
Definition marker_style1 (a : attr_list) : option bytes :=
  match str_positional1 0 a with
  | Some x => if existsb (bytes_eqb x) [$"square"; $"circle"; $"disc"; $"none"; $"no-bullet"; $"unstyled"] then Some x else None
  | None => None
  end.
(** lines 164-175 *)
Definition number_style1 (a : attr_list) : option bytes :=
  match str_positional1 0 a with
  | Some x => if existsb (bytes_eqb x) [$"arabic"; $"decimal"; $"loweralpha"; $"upperalpha"; $"lowerroman"; $"upperroman"; $"lowergreek"] then Some x else None
  | None => None
  end.
(** lines 129-146, with ast/src/block.rs:143-167 *)
Definition block_style1 (c : BlockModel.context) (a : attr_list) : option BlockModel.context :=
  match match str_positional1 0 a with Some x => BlockModel.derive x | None => None end with
  | None => None
  | Some m =>
      match c, m with
      | BlockModel.COpen, _ | BlockModel.CParagraph, _ => Some m
      | BlockModel.CListing, BlockModel.CLiteral | BlockModel.CLiteral, BlockModel.CListing => Some m
      | BlockModel.CBlockQuote, BlockModel.CVerse => Some m
      | BlockModel.CExample, BlockModel.CAdmonition _ => Some m
      | _, _ => None
      end
  end.

(** ** The lines above a block: ast/src/multi_attr_list.rs:22-92 *)
Definition is_empty (l : list attr_list) : bool := is_nil l || forallb is_empty1 l.
Definition all_roles (l : list attr_list) : list bytes := flat_map roles1 l.
Definition get_id (l : list attr_list) : option bytes := find_map id l.
Definition str_positional (n : nat) (l : list attr_list) : option bytes := find_map (str_positional1 n) l.
Definition positional_at (n : nat) (l : list attr_list) : option value := find_map (positional1 n) l.
Definition has_option (x : bytes) (l : list attr_list) : bool := existsb (has_option1 x) l.
Definition has_str_positional (x : bytes) (l : list attr_list) : bool := existsb (has_str_positional1 x) l.
Definition is_source (l : list attr_list) : bool := existsb is_source1 l.
Definition source_language (l : list attr_list) : option bytes := find_map source_language1 l.
Definition has_role (x : bytes) (l : list attr_list) : bool := existsb (has_role1 x) l.
Definition get_named (key : bytes) (l : list attr_list) : option bytes := find_map (named1 key) l.
Definition named_nodes (key : bytes) (l : list attr_list) : option value := find_map (named_nodes1 key) l.
Definition number_style (l : list attr_list) : option bytes := find_map number_style1 l.
Definition marker_style (l : list attr_list) : option bytes := find_map marker_style1 l.
Definition block_style (c : BlockModel.context) (l : list attr_list) : option BlockModel.context := find_map (block_style1 c) l.

(** ** The brackets of a macro and the lines above it: ast/src/priority_attr_list.rs:17-105 *)
Section Priority.
Context (p : attr_list) (rest : list attr_list).
Definition p_is_empty : bool := is_empty1 p && is_empty rest.
Definition p_str_positional (n : nat) : option bytes := or_else (str_positional1 n p) (str_positional n rest).
Definition p_positional_at (n : nat) : option value := or_else (positional1 n p) (positional_at n rest).
Definition p_has_option (x : bytes) : bool := has_option1 x p || has_option x rest.
Definition p_has_str_positional (x : bytes) : bool := has_str_positional1 x p || has_str_positional x rest.
Definition p_is_source : bool := is_source1 p || is_source rest.
Definition p_source_language : option bytes := or_else (source_language1 p) (source_language rest).
Definition p_has_role (x : bytes) : bool := has_role1 x p || has_role x rest.
Definition p_named (key : bytes) : option bytes := or_else (named1 key p) (get_named key rest).
Definition p_named_nodes (key : bytes) : option value := or_else (named_nodes1 key p) (named_nodes key rest).
Definition p_number_style : option bytes := or_else (number_style1 p) (number_style rest).
Definition p_marker_style : option bytes := or_else (marker_style1 p) (marker_style rest).
Definition p_block_style (c : BlockModel.context) : option BlockModel.context := or_else (block_style1 c p) (block_style c rest).
Definition p_id : option bytes := or_else (id p) (get_id rest).
Definition p_roles : list bytes := roles1 p ++ all_roles rest.
End Priority.
