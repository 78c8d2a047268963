(** Model of opening tags: backend/src/html/open_tag.rs, backend/src/html/htmlbuf.rs:38-42, 88-102, backend/src/html/backend.rs:348-386. *)
From Verif Require Import Base EscapeModel.

(** open_tag.rs:9-14 *)
Record tag := Tag { buf : bytes; opened_classes : bool; append_classes : option bytes; styles : option bytes }.
Definition push_str (s : bytes) (t : tag) : tag := Tag (buf t ++ s) (opened_classes t) (append_classes t) (styles t).
(** htmlbuf.rs:38-42 *)
Definition push_html_attr (name value : bytes) (t : tag) : tag := push_str (html_attr name value) t.

(** open_tag.rs:50-58: the roles with a space between them *)
Definition joined (sep : bytes) (first : bytes) (rest : list bytes) : bytes := fold_left (fun acc r => acc ++ sep ++ r) rest first.
(** open_tag.rs:34-60. [id]: the id of the attributes if it is to be written. AttrData::roles leaves out empty roles (attr_list.rs:34-36) *)
Definition new (elem : bytes) (id : option bytes) (roles : list bytes) : tag :=
  let t := Tag ($"<" ++ elem) false None None in
  let t := match id with Some i => push_html_attr ($"id") i t | None => t end in
  match filter (fun r => negb (bytes_eqb r [])) roles with
  | [] => t
  | r :: rs => Tag (buf t) (opened_classes t) (Some (joined ($" ") r rs)) (styles t)
  end.
(** open_tag.rs:90-101; no prefix is the empty one. push_class, push_classes, push_opt_class, push_opt_prefixed_class (70-88) call it *)
Definition push_prefixed_class (prefix class : bytes) (t : tag) : tag :=
  let t := if opened_classes t then push_str ($" ") t else Tag (buf t ++ $" class=" ++ [dquote]) true (append_classes t) (styles t) in
  push_str (prefix ++ class) t.
(** open_tag.rs:130-137 *)
Definition push_style (s : bytes) (t : tag) : tag :=
  Tag (buf t) (opened_classes t) (append_classes t) (Some (match styles t with None => s | Some st => st ++ $"; " ++ s end)).
(** open_tag.rs:159-173 *)
Definition finish_classes (t : tag) : tag :=
  let t := match append_classes t with
           | Some a => let t := if opened_classes t then push_str ($" ") t else Tag (buf t ++ $" class=" ++ [dquote]) true (append_classes t) (styles t) in
                       Tag (buf t ++ a) (opened_classes t) None (styles t)
           | None => t
           end in
  let t := if opened_classes t then push_str [dquote] t else t in
  Tag (buf t) false (append_classes t) (styles t).
(** open_tag.rs:175-182 *)
Definition finish (t : tag) : bytes :=
  let t := finish_classes t in
  let t := match styles t with Some s => push_html_attr ($"style") s t | None => t end in
  buf t ++ $">".

(** open_tag.rs:103-128. [named]: the attribute of the block; [doc]: the string value of the document's, if it has one *)
Definition resolved_class (name : bytes) (named doc default : option bytes) : option bytes :=
  let norm v := if bytes_eqb v ($"topbot") && bytes_eqb name ($"frame") then $"ends" else v in
  match named with Some v => Some (norm v) | None => match doc with Some v => Some (norm v) | None => default end end.
Definition push_resolved_attr_class (name : bytes) (named doc default : option bytes) (prefix : bytes) (t : tag) : tag :=
  match resolved_class name named doc default with Some c => push_prefixed_class prefix c t | None => t end.

(** the calls of the API, in the order they are made *)
Inductive call := CClass (prefix class : bytes) | CStyle (s : bytes) | CAttr (name value : bytes) | CFinishClasses.
Definition apply_call (t : tag) (c : call) : tag :=
  match c with CClass p k => push_prefixed_class p k t | CStyle s => push_style s t | CAttr n v => push_html_attr n v t | CFinishClasses => finish_classes t end.
Definition open_tag (elem : bytes) (id : option bytes) (roles : list bytes) (calls : list call) : bytes := finish (fold_left apply_call calls (new elem id roles)).

(** htmlbuf.rs:88-102 *)
Definition link_constraint (window : option bytes) (noopener nofollow : bool) : bytes :=
  match window with
  | Some w =>
      $" target=" ++ [dquote] ++ w ++
      (if bytes_eqb w ($"_blank") || noopener then [dquote] ++ $" rel=" ++ [dquote] ++ $"noopener" else []) ++
      (if nofollow then $" nofollow" ++ [dquote] else [dquote])
  | None => if nofollow then $" rel=" ++ [dquote] ++ $"nofollow" ++ [dquote] else []
  end.

(** the attributes of a link that are used *)
Record link_attrs := LinkAttrs { l_id : option bytes; l_roles : list bytes; l_title : option bytes; l_window : option bytes; l_noopener : bool; l_nofollow : bool }.
(** open_tag.rs:139-157 *)
Definition push_link_attrs (a : link_attrs) (has_link_text blank_window_shorthand : bool) (t : tag) : tag :=
  let t := if has_link_text then t else push_prefixed_class [] ($"bare") t in
  let t := finish_classes t in
  let t := match l_title a with Some v => push_html_attr ($"title") v t | None => t end in
  if blank_window_shorthand then push_str ($" target=" ++ [dquote] ++ $"_blank" ++ [dquote] ++ $" rel=" ++ [dquote] ++ $"noopener" ++ [dquote]) t
  else push_str (link_constraint (l_window a) (l_noopener a) (l_nofollow a)) t.
(** backend.rs:365-385 *)
Definition link_tag (target : bytes) (attrs : option link_attrs) (mailto has_link_text blank : bool) : bytes :=
  let t := match attrs with Some a => new ($"a") (l_id a) (l_roles a) | None => new ($"a") None [] end in
  let t := push_str ($" href=" ++ [dquote] ++ (if mailto then $"mailto:" else []) ++ push_escaped false target ++ [dquote]) t in
  let t := match attrs with Some a => push_link_attrs a has_link_text blank t | None => t end in
  let t := if match attrs with None => true | _ => false end && negb has_link_text && negb mailto then push_prefixed_class [] ($"bare") t else t in
  finish t.
