(** What an opening tag is: its attributes, each a name and a quoted value. *)
From Verif Require Import Base EscapeModel OpenTagModel.

Definition name_char (c : ascii) : Prop := In c ($"abcdefghijklmnopqrstuvwxyz-").
Definition quoted (v : bytes) : bytes := [dquote] ++ v ++ [dquote].
(** [attrs_text l t]: t is the text of the attributes l and the end of the tag *)
Inductive attrs_text : list (bytes * bytes) -> bytes -> Prop :=
| at_end : attrs_text [] ($">")
| at_attr n v l t : n <> [] -> Forall name_char n -> ~ In dquote v -> attrs_text l t -> attrs_text ((n, v) :: l) ($" " ++ n ++ $"=" ++ quoted v ++ t).
Definition reads_as (text elem : bytes) (attrs : list (bytes * bytes)) : Prop := exists t, text = $"<" ++ elem ++ t /\ attrs_text attrs t.

(** parts with a separator between them *)
Fixpoint joined_with (sep : bytes) (ps : list bytes) : bytes := match ps with [] => [] | [p] => p | p :: r => p ++ sep ++ joined_with sep r end.

(** The calls in order: attributes come before the first class or after the classes are finished, and no class comes after that. *)
Inductive phase := Before | Classes | After.
Fixpoint in_order (p : phase) (calls : list call) : Prop :=
  match calls with
  | [] => True
  | CStyle _ :: r => in_order p r
  | CClass _ _ :: r => p <> After /\ in_order Classes r
  | CAttr n _ :: r => p <> Classes /\ n <> [] /\ Forall name_char n /\ in_order p r
  | CFinishClasses :: r => in_order After r
  end.
Definition classes_of (calls : list call) : list bytes := flat_map (fun c => match c with CClass p k => [p ++ k] | _ => [] end) calls.
Definition styles_of (calls : list call) : list bytes := flat_map (fun c => match c with CStyle s => [s] | _ => [] end) calls.
Definition attrs_of (calls : list call) : list (bytes * bytes) := flat_map (fun c => match c with CAttr n v => [(n, push_escaped true v)] | _ => [] end) calls.
(** the calls up to the first that has to do with classes, and the rest *)
Fixpoint before_classes (calls : list call) : list call := match calls with CStyle s :: r => CStyle s :: before_classes r | CAttr n v :: r => CAttr n v :: before_classes r | _ => [] end.
Fixpoint from_classes (calls : list call) : list call := match calls with CStyle _ :: r | CAttr _ _ :: r => from_classes r | _ => calls end.
(** an attribute that is left out if there is nothing to say *)
Definition opt_attr (name sep : bytes) (ps : list bytes) (esc : bytes -> bytes) : list (bytes * bytes) := match ps with [] => [] | _ => [(name, esc (joined_with sep ps))] end.
Definition tag_attrs (id : option bytes) (roles : list bytes) (calls : list call) : list (bytes * bytes) :=
  match id with Some i => [($"id", push_escaped true i)] | None => [] end ++
  attrs_of (before_classes calls) ++
  opt_attr ($"class") ($" ") (classes_of calls ++ filter (fun r => negb (bytes_eqb r [])) roles) (fun x => x) ++
  attrs_of (from_classes calls) ++
  opt_attr ($"style") ($"; ") (styles_of calls) (push_escaped true).

(** what is asked for by the attributes of a link *)
Definition rel_words (window : option bytes) (noopener nofollow : bool) : list bytes :=
  (match window with Some w => if bytes_eqb w ($"_blank") || noopener then [$"noopener"] else [] | None => [] end) ++ (if nofollow then [$"nofollow"] else []).
Definition constraint_attrs (window : option bytes) (noopener nofollow : bool) : list (bytes * bytes) :=
  match window with Some w => [($"target", w)] | None => [] end ++ opt_attr ($"rel") ($" ") (rel_words window noopener nofollow) (fun x => x).
Definition link_tag_attrs (target : bytes) (attrs : option link_attrs) (mailto has_link_text blank : bool) : list (bytes * bytes) :=
  let href := ($"href", (if mailto then $"mailto:" else []) ++ push_escaped false target) in
  match attrs with
  | None => href :: (if has_link_text || mailto then [] else [($"class", $"bare")])
  | Some a =>
      match l_id a with Some i => [($"id", push_escaped true i)] | None => [] end ++ [href] ++
      opt_attr ($"class") ($" ") ((if has_link_text then [] else [$"bare"]) ++ filter (fun r => negb (bytes_eqb r [])) (l_roles a)) (fun x => x) ++
      match l_title a with Some v => [($"title", push_escaped true v)] | None => [] end ++
      (if blank then [($"target", $"_blank"); ($"rel", $"noopener")] else constraint_attrs (l_window a) (l_noopener a) (l_nofollow a))
  end.
