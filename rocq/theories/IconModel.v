(** The icons of admonitions when images are put into the document as data: parser/src/tasks/parse_image_block.rs, the numbers
    that places in the sources have (ast/src/source_location.rs, ast/src/multi_source_location.rs), and what evaluation finds
    (eval/src/eval.rs).  The include resolver is a parameter; what it reports when it fails is left out. *)
From Verif Require Import Base Base64Model.
Import ListNotations.
Open Scope N_scope.

(** core/src/attrs.rs:1-26, 39-41, 55-57, 89-91 *)
Inductive attr_value := VText (x : bytes) | VBool (b : bool).
Definition is_true (o : option attr_value) : bool := match o with Some (VBool true) => true | _ => false end.
Definition str (o : option attr_value) : option bytes := match o with Some (VText x) => Some x | Some (VBool true) => Some [] | _ => None end.
Definition str_or (o : option attr_value) (d : bytes) : bytes := match str o with Some x => x | None => d end.

(** ast/src/admonition.rs:3-21 *)
Inductive kind := Tip | Caution | Important | Note | Warning.
Definition lowercase (k : kind) : bytes :=
  match k with Tip => $"tip" | Caution => $"caution" | Important => $"important" | Note => $"note" | Warning => $"warning" end.

(** the document attributes that are asked, and whether [iconsdir] is a URI (parse_image_block.rs:190-202) *)
Record settings := Settings { data_uri : option attr_value; icons : option attr_value; icontype : option attr_value; allow_uri_read : option attr_value; iconsdir_is_uri : bool }.
(** where a block begins: ast/src/source_location.rs:4-8, the number of its source and the place in it *)
Record place := Place { source : N; start : N }.
(** ast/src/source_location.rs:99-102: [((include_depth as u64) << 32) | (start as u64)], in 64 bits *)
Definition uid (p : place) : N := N.lor (N.shiftl (source p) 32 mod 2 ^ 64) (start p).
(** a block: where it begins, what admonition it is, whether it is delimited, and its icon attribute *)
Record block := Block { at_place : place; what : option kind; delimited : bool; icon : option bytes }.

(** parse_image_block.rs:65-78 *)
Definition extension (s : settings) : bytes :=
  let ext := match str (icontype s) with Some x => x | None => str_or (icons s) $"png" end in
  match ext with [] => $"png" | _ => ext end.
Definition filename (s : settings) (k : kind) (custom : option bytes) : bytes :=
  match custom with Some x => x | None => lowercase k end ++ $"." ++ extension s.
(** parse_image_block.rs:80-94; [files] is the include resolver *)
Definition icon_data (files : bytes -> option (list N)) (s : settings) (k : kind) (custom : option bytes) : outcome bytes :=
  let front := $"data:image/" ++ (if bytes_eqb (extension s) $"svg" then $"svg+xml" else extension s) ++ $";base64," in
  match files (filename s k custom) with
  | None => Ret front
  | Some l => match encode l with Ret x => Ret (front ++ x) | Panic => Panic end
  end.
(** parse_image_block.rs:52-63 *)
Definition embeds (s : settings) : bool :=
  is_true (data_uri s)
  && negb (negb (is_true (icons s)) || match str (icons s) with Some x => bytes_eqb x $"font" | None => false end)
  && negb (iconsdir_is_uri s && negb (is_true (allow_uri_read s))).
(** core/src/document_meta.rs:16: a HashMap; the last value of a key counts *)
Definition table := list (N * bytes).
Fixpoint get (t : table) (key : N) : option bytes :=
  match t with [] => None | (k, x) :: r => if k =? key then Some x else get r key end.
(** parse_image_block.rs:47-101, called for paragraphs only (parse_block.rs:433) *)
Definition set_icon (files : bytes -> option (list N)) (s : settings) (b : block) (t : table) : outcome table :=
  if delimited b then Ret t
  else match what b with
       | None => Ret t
       | Some k => if embeds s then match icon_data files s k (icon b) with Ret x => Ret ((uid (at_place b), x) :: t) | Panic => Panic end else Ret t
       end.
(** the blocks of a document in the order in which they are parsed, each with the settings there *)
Fixpoint parse (files : bytes -> option (list N)) (l : list (settings * block)) (t : table) : outcome table :=
  match l with
  | [] => Ret t
  | (s, b) :: r => match set_icon files s b t with Ret t' => parse files r t' | Panic => Panic end
  end.
(** eval/src/eval.rs:258-265, 277-284 *)
Definition found (t : table) (b : block) : option bytes := match what b with Some _ => get t (uid (at_place b)) | None => None end.
