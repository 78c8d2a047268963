(** What tag= and tags= should select. *)
From Verif Require Import Base Utf8 Text.

Definition newline : ascii := ascii_of_nat 10.
Definition return_ : ascii := ascii_of_nat 13.
Definition placeholder : bytes := $"asciidorkinclude::[false]".
(** No white space character occurs in [s]. *)
Definition no_white (s : bytes) : Prop := forall a w z, In w white -> s <> a ++ w ++ z.
(** Word characters: letters, digits, underscore, and whatever [word] says of characters outside ASCII. *)
Definition word_char (word : bytes -> bool) (c : bytes) : Prop :=
  match c with
  | [a] => In a ($"abcdefghijklmnopqrstuvwxyzABCDEFGHIJKLMNOPQRSTUVWXYZ0123456789_")
  | _ => word c = true
  end.
Definition ends_in_word (word : bytes -> bool) (s : bytes) : Prop := exists x c, s = x ++ c /\ utf8_char c /\ word_char word c.
(** A tag directive in a line: the word tag (start) or end, two colons, a name and empty brackets, followed by a space or the line end. *)
Inductive kind := Opens | Closes.
Definition keyword (k : kind) : bytes := match k with Opens => $"tag" | Closes => $"end" end.
Definition directive_after (word : bytes -> bool) (line a : bytes) (k : kind) (name : bytes) : Prop :=
  exists z, line = a ++ keyword k ++ $"::" ++ name ++ $"[]" ++ z /\ ~ ends_in_word word a /\ name <> [] /\ no_white name /\
    (z = [] \/ z = [return_] \/ exists r, z = " "%char :: r).
(** The line's (first) directive; a line without one. *)
Definition directive_line (word : bytes -> bool) (line : bytes) (k : kind) (name : bytes) : Prop :=
  exists a, directive_after word line a k name /\ forall a' k' n', directive_after word line a' k' n' -> length a <= length a'.
Definition plain_line (word : bytes -> bool) (line : bytes) : Prop := forall a k n, ~ directive_after word line a k n.

(** Lines in properly nested tagged regions: [nested word path lines res] says that [lines], inside the regions [path] (innermost
    first), consist of the plain lines in [res], each given with the regions around it. *)
Inductive nested (word : bytes -> bool) : list bytes -> list bytes -> list (list bytes * bytes) -> Prop :=
| N_nil path : nested word path [] []
| N_line path l ls res : plain_line word l -> nested word path ls res -> nested word path (l :: ls) ((path, l) :: res)
| N_region path s t body e rest r1 r2 : directive_line word s Opens t -> nested word (t :: path) body r1 -> directive_line word e Closes t ->
    nested word path rest r2 -> nested word path (s :: body ++ e :: rest) (r1 ++ r2).
(** The lines of a text. *)
Definition line_list (src : bytes) (ls : list bytes) : Prop := src = join_byte newline ls /\ ls <> [] /\ Forall (fun l => ~ In newline l) ls.
(** What the parser sees of a text of terminated lines: lines that start with the place holder's name are dropped. *)
Definition unlines (ls : list bytes) : bytes := concat (map (fun l => l ++ [newline]) ls).
Definition visible (ls : list bytes) : list bytes := filter (fun l => negb (starts_with ($"asciidorkinclude::") l)) ls.
(** [kept] are the lines of [res] whose regions satisfy [P], in order. *)
Inductive those (P : list bytes -> Prop) : list (list bytes * bytes) -> list bytes -> Prop :=
| T_nil : those P [] []
| T_keep path l res kept : P path -> those P res kept -> those P ((path, l) :: res) (l :: kept)
| T_drop path l res kept : ~ P path -> those P res kept -> those P ((path, l) :: res) kept.
(** A usable tag name. *)
Definition tag_name (t : bytes) : Prop :=
  t <> [] /\ no_white t /\ ~ In ","%char t /\ ~ In ";"%char t /\ (forall r, t <> "!"%char :: r) /\ t <> $"*" /\ t <> $"**".
(** Selection by the innermost open tag that the specification mentions; with none open, lines are selected iff no tag is asked for. *)
Fixpoint by_innermost (names nots : list bytes) (path : list bytes) : Prop :=
  match path with
  | [] => names = []
  | t :: r => In t names /\ ~ In t nots \/ (~ In t names /\ ~ In t nots /\ by_innermost names nots r)
  end.
(** The meaning of a tags= text [s], as a condition on the regions around a line. *)
Definition sep_text (sep : ascii) : Prop := sep = ";"%char \/ sep = ","%char.
Inductive means : bytes -> (list bytes -> Prop) -> Prop :=
| M_all : means ($"**") (fun _ => True)
| M_none : means ($"!**") (fun _ => False)
| M_tagged : means ($"*") (fun path => path <> [])
| M_untagged : means ($"!*") (fun path => path = [])
| M_names sep names : sep_text sep -> names <> [] -> Forall tag_name names ->
    means (join_byte sep names) (fun path => exists t, In t names /\ In t path)
| M_nots sep names : sep_text sep -> names <> [] -> Forall tag_name names ->
    means (join_byte sep (map (cons "!"%char) names)) (fun path => forall t, In t names -> ~ In t path)
| M_but sep t n : sep_text sep -> tag_name t -> tag_name n -> means (t ++ sep :: "!"%char :: n) (fun path => In t path /\ ~ In n path)
| M_own sep t : sep_text sep -> tag_name t -> means (t ++ sep :: $"!*") (fun path => exists r, path = t :: r)
| M_tagged_but sep n : sep_text sep -> tag_name n -> means ($"*" ++ sep :: "!"%char :: n) (fun path => path <> [] /\ ~ In n path)
| M_untagged_and sep t : sep_text sep -> tag_name t -> means ($"!*" ++ sep :: t) (fun path => path = [] \/ exists r, path = t :: r)
| M_all_but sep n : sep_text sep -> tag_name n -> means ($"**" ++ sep :: "!"%char :: n) (fun path => ~ In n path).
(** A name requested by tags=names that no line of the file opens. *)
Definition never_opened (word : bytes -> bool) (ls : list bytes) (t : bytes) : Prop := forall l, In l ls -> ~ directive_line word l Opens t.
(** Order of names, byte by byte. *)
Definition precedes (x y : bytes) : Prop := exists p,
  (x = p /\ exists c r, y = p ++ c :: r) \/ (exists a u c v, x = p ++ a :: u /\ y = p ++ c :: v /\ (val a < val c)%N).
(** The report about names that were not found. *)
Definition quoted_list (ts : list bytes) : bytes := match ts with [] => [] | t :: r => t ++ concat (map (fun u => $"`, `" ++ u) r) end.
Definition not_found_message (ts : list bytes) : bytes :=
  match ts with
  | [t] => $"Tag `" ++ t ++ $"` not found in included file"
  | _ => $"Tags `" ++ quoted_list ts ++ $"` not found in included file"
  end.
