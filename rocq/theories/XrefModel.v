(** Model of cross references: how they are collected (parser/src/tasks/parse_inlines/mod.rs: push_xref), how anchors are collected (parser/src/tasks/anchors.rs,
    parse_section.rs, parse_book_part.rs), what is reported at the end (parser/src/tasks/diagnose_document.rs), and where links lead (backend/src/utils.rs: xref). *)
From Verif Require Import Base PathModel.
Open Scope list_scope.

(** ** core/src/file.rs *)
Definition is_separator (c : ascii) : bool := Ascii.eqb c "/" || Ascii.eqb c "\".
(** 31-33 *)
Fixpoint basename (s : bytes) : bytes := match s with [] => [] | _ :: r => if existsb is_separator s then basename r else s end.
(** 2-9 *)
Definition ext (s : bytes) : option bytes := match rsplit_dot (basename s) with Some (_, d) => Some (tl d) | None => None end.
(** 11-13 *)
Definition has_ext (s : bytes) : bool := match rsplit_dot (basename s) with Some _ => true | None => false end.
(** 15-20 *)
Definition adoc_exts : list bytes := [$"adoc"; $"asciidoc"; $"asc"; $"ad"].
Definition has_adoc_ext (s : bytes) : bool := match ext s with Some e => existsb (bytes_eqb e) adoc_exts | None => false end.
(** 22-29; the dot is looked for in the whole text *)
Definition remove_ext (s : bytes) : bytes := if has_ext s then match rsplit_dot s with Some (x, _) => x | None => s end else s.
(** [str::ends_with] *)
Definition ends_with (t s : bytes) : bool := starts_with (rev t) (rev s).
(** [str::split_once('#')], also [splitn(2, '#')] and [find('#')] with the text on both sides *)
Fixpoint split_hash (s : bytes) : option (bytes * bytes) :=
  match s with
  | [] => None
  | c :: r => if Ascii.eqb c "#" then Some ([], r) else match split_hash r with Some (x, y) => Some (c :: x, y) | None => None end
  end.

(** ** Collecting *)
(** ast/src/source_location.rs:3-8; [l_file] is [include_depth], the number of the source *)
Record loc := Loc { l_start : nat; l_end : nat; l_file : nat }.
(** [HashMap::insert]: the entry of a key that is there already gets the new value. The order of the entries is not the one of a hash map: see [diagnose_invalid_xrefs]. *)
Definition insert {V} (k : bytes) (v : V) (m : list (bytes * V)) : list (bytes * V) := filter (fun e => negb (bytes_eqb (fst e) k)) m ++ [(k, v)].
Fixpoint find_key {V} (k : bytes) (m : list (bytes * V)) : option V := match m with [] => None | (k', v) :: m => if bytes_eqb k' k then Some v else find_key k m end.
(** a reference as it is written *)
Record ref := Ref { r_target : bytes; r_loc : loc }.
(** parse_inlines/mod.rs:905-913 *)
Definition key_of (r : ref) : bytes * loc :=
  match r_target r with
  | "#"%char :: ((_ :: _) as t) => (t, Loc (S (l_start (r_loc r))) (l_end (r_loc r)) (l_file (r_loc r)))
  | t => (t, r_loc r)
  end.
Definition push_xref (r : ref) (m : list (bytes * loc)) : list (bytes * loc) := insert (fst (key_of r)) (snd (key_of r)) m.
Definition collect (l : list ref) : list (bytes * loc) := fold_left (fun m r => push_xref r m) l [].

(** ast/src/node.rs: [Anchor], without its texts *)
Record place := Place { a_loc : option loc; a_file : nat; a_biblio : bool }.
(** What puts an anchor into the table: one that is written as such (parse_inlines/mod.rs:305-318, 975-1000, parse_attr_list.rs, anchors.rs) and the id of a section or of a
    part (parse_section.rs:113-122, parse_book_part.rs:35-46). *)
Inductive definition := AnchorDef (id : bytes) (id_loc : loc) (p : place) | SectionDef (id : bytes) (file : nat).
Inductive duplicate := DuplicateAnchor (at_ : loc) | DuplicateBiblio (at_ : loc).
Definition loc_eqb (x y : loc) : bool := (l_start x =? l_start y) && (l_end x =? l_end y) && (l_file x =? l_file y).
Definition same_loc (x y : option loc) : bool := match x, y with Some x, Some y => loc_eqb x y | None, None => true | _, _ => false end.
(** anchors.rs:4-28 *)
Definition define (d : definition) (m : list (bytes * place) * list duplicate) : list (bytes * place) * list duplicate :=
  match d with
  | SectionDef id file => (insert id (Place None file false) (fst m), snd m)
  | AnchorDef id at_ p =>
      match find_key id (fst m) with
      | Some q => if same_loc (a_loc q) (a_loc p) then (insert id p (fst m), snd m)
                  else (fst m, snd m ++ [if a_biblio p then DuplicateBiblio at_ else DuplicateAnchor at_])
      | None => (insert id p (fst m), snd m)
      end
  end.
Definition anchors_of (l : list definition) : list (bytes * place) * list duplicate := fold_left (fun m d => define d m) l ([], []).

(** ** What is reported at the end: diagnose_document.rs *)
(** parser/src/parser.rs:381-405. Of a path only its name and its text are used. *)
Inductive source := Stdin | FileSource (name full : bytes) | Tmp.
Definition source_name (s : source) : bytes := match s with Stdin => $"<stdin>" | FileSource n _ => n | Tmp => $"<temp-buffer>" end.
Definition opt_eqb (x y : option bytes) : bool := match x, y with Some x, Some y => bytes_eqb x y | None, None => true | _, _ => false end.
Definition is_some {A} (o : option A) : bool := match o with Some _ => true | None => false end.
(** parser.rs:407-428 *)
Definition matches_xref_target (s : source) (target : bytes) : bool :=
  match s with
  | FileSource name full =>
      if bytes_eqb name target then true
      else if is_some (ext target) && negb (opt_eqb (ext target) (ext name)) then false
      else if ends_with target full then true
      else if is_some (ext target) then false
      else ends_with target (remove_ext full)
  | _ => false
  end.
(** root_lexer.rs:147-155 *)
Fixpoint source_idx_of (i : nat) (l : list source) (target : bytes) : option nat :=
  match l with [] => None | s :: l => if matches_xref_target s target then Some i else source_idx_of (S i) l target end.
(** 44-68 *)
Definition target_data (sources : list source) (target : bytes) (file : nat) : option (nat * bytes) :=
  match target with
  | "#"%char :: [] => Some (file, $"__self__")
  | "#"%char :: _ => Some (file, target)
  | _ =>
      match split_hash target with
      | Some (prefix, id) =>
          if has_adoc_ext prefix || negb (is_some (ext prefix)) then match source_idx_of 0 sources prefix with Some i => Some (i, id) | None => None end
          else Some (file, id)
      | None =>
          if has_adoc_ext target && match sources with s :: _ => ends_with target (source_name s) | [] => false end then Some (0, $"__self__")
          else Some (file, target)
      end
  end.
(** 15-32, one entry *)
Definition invalid (sources : list source) (anchors : list (bytes * place)) (e : bytes * loc) : bool :=
  match target_data sources (fst e) (l_file (snd e)) with
  | None => true
  | Some (i, id) =>
      if bytes_eqb id ($"__self__") then false
      else match find_key id anchors with None => true | Some a => negb (a_file a =? i) end
  end.
(** 10-34. [entries]: the references in the order in which the hash map gives them. [in_cell]: whether this is the parser of a table cell. The result is what is reported when
    the parser is not strict; a strict one stops at the first. *)
Definition diagnose_invalid_xrefs (in_cell : bool) (sources : list source) (anchors : list (bytes * place)) (entries : list (bytes * loc)) : list (bytes * loc) :=
  if in_cell then [] else filter (invalid sources anchors) entries.
(** 70-90 *)
Inductive toc_place := TocMacro | TocPreamble | TocElsewhere.
Inductive content_kind := OnlyBlocks | WithSections (preamble : bool) | WithParts (preamble : bool).
Inductive toc_report := NoTocMacro | NoPreamble.
Definition diagnose_toc (t : option toc_place) (saw_macro : bool) (c : content_kind) : option toc_report :=
  match t with
  | Some TocMacro => if saw_macro then None else Some NoTocMacro
  | Some TocPreamble => match c with OnlyBlocks | WithSections false => Some NoPreamble | _ => None end
  | _ => None
  end.

(** ** Where a link leads: backend/src/utils.rs *)
Inductive xref_kind := Shorthand | Macro.
(** the attributes that are read, and the paths as they are written in include directives (directives/includes/process_includes.rs:110-114) *)
Record settings := Settings { docfilename : option bytes; relfileprefix : option bytes; relfilesuffix : option bytes; outfilesuffix : option bytes; included : list bytes }.
(** 88-96 *)
Definition is_interdoc (target : bytes) (k : xref_kind) : bool :=
  match target with
  | "#"%char :: _ => false
  | _ => match k with Shorthand => contains_byte "#" target | Macro => contains_byte "#" target || contains_byte "." (basename target) end
  end.
(** 98-100 *)
Definition remove_leading_hash (s : bytes) : bytes := match s with "#"%char :: r => r | _ => s end.
(** 55-74 *)
Definition path_was_included (m : settings) (path : bytes) : bool :=
  if has_adoc_ext path then opt_eqb (Some path) (docfilename m) || existsb (bytes_eqb path) (included m)
  else if negb (has_ext path) then existsb (fun f => bytes_eqb (remove_ext f) path) (included m)
  else false.
(** 76-80 *)
Definition interdoc_suffix (m : settings) : bytes := match relfilesuffix m with Some s => s | None => match outfilesuffix m with Some s => s | None => [] end end.
(** 16-53 *)
Definition interdoc_href (m : settings) (target : bytes) (k : xref_kind) (with_id : bool) : bytes :=
  let path := match split_hash target with Some (p, _) => p | None => target end in
  let id := match split_hash target with Some (_, ((_ :: _) as i)) => i | _ => [] end in
  if path_was_included m path then "#"%char :: id
  else
    (match relfileprefix m with Some p => p | None => [] end) ++ (if has_adoc_ext path then remove_ext path else path) ++
    (if match k with Shorthand => true | Macro => false end || has_adoc_ext path || negb (contains_byte "." (basename path)) then interdoc_suffix m else []) ++
    (if with_id then match id with [] => [] | _ => "#"%char :: id end else []).
(** 7-14 *)
Definition href (m : settings) (target : bytes) (k : xref_kind) (with_id : bool) : bytes :=
  if is_interdoc target k then interdoc_href m target k with_id else "#"%char :: remove_leading_hash target.
