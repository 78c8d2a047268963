(** Model of parser/src/substitutions.rs, parser/src/tasks/customize_subs.rs and the pass-macro
    substitution parser of parser/src/tasks/parse_inlines/inline_utils.rs. *)
From Verif Require Import Base.

(** parser/src/substitutions.rs:4-12 *)
Inductive sub : Type :=
| SpecialChars | InlineFormatting | AttrRefs | CharReplacement | Macros | PostReplacement | Callouts.

Definition sub_eqb (x y : sub) : bool :=
  match x, y with
  | SpecialChars, SpecialChars | InlineFormatting, InlineFormatting | AttrRefs, AttrRefs
  | CharReplacement, CharReplacement | Macros, Macros | PostReplacement, PostReplacement
  | Callouts, Callouts => true
  | _, _ => false
  end.

(** parser/src/substitutions.rs:14-18; [order] has seven slots *)
Record subs : Type := mkSubs { order : list (option sub); flags : N }.

(** parser/src/substitutions.rs:199-217 *)
Definition bitflag (s : sub) : N :=
  match s with
  | SpecialChars => 1 | InlineFormatting => 2 | AttrRefs => 4 | CharReplacement => 8
  | Macros => 16 | PostReplacement => 32 | Callouts => 64
  end%N.

(** parser/src/substitutions.rs:27-29 *)
Definition contains (st : subs) (s : sub) : bool := negb (N.land (flags st) (bitflag s) =? 0)%N.

(** parser/src/substitutions.rs:31-101 *)
Definition normal : subs :=
  mkSubs [Some SpecialChars; Some InlineFormatting; Some AttrRefs; Some CharReplacement; Some Macros; Some PostReplacement; None] 63.
Definition attr_value : subs :=
  mkSubs [Some SpecialChars; Some InlineFormatting; Some AttrRefs; Some CharReplacement; None; None; None] 15.
Definition verbatim : subs :=
  mkSubs [Some SpecialChars; Some Callouts; None; None; None; None; None] 65.
Definition only_special_chars : subs :=
  mkSubs [Some SpecialChars; None; None; None; None; None; None] 1.
Definition all : subs :=
  mkSubs [Some SpecialChars; Some InlineFormatting; Some AttrRefs; Some CharReplacement; Some Macros; Some PostReplacement; Some Callouts] 127.
Definition none : subs := mkSubs [None; None; None; None; None; None; None] 0.

(** the search loop of [insert], over slots 0..6 — parser/src/substitutions.rs:136-141.
    [None]: no free slot among the first [n]. *)
Fixpoint fill (n : nat) (s : sub) (l : list (option sub)) : option (list (option sub)) :=
  match n, l with
  | S n', None :: r => Some (Some s :: r)
  | S n', Some x :: r => match fill n' s r with Some r' => Some (Some x :: r') | None => None end
  | _, _ => None
  end.

(** parser/src/substitutions.rs:131-143. [dbg]: debug assertions are compiled in. *)
Definition insert (dbg : bool) (st : subs) (s : sub) : outcome subs :=
  if contains st s then Ret st
  else
    let fl := N.lor (flags st) (bitflag s) in
    match fill 6 s (order st) with
    | Some o => Ret (mkSubs o fl)
    | None => if dbg then Panic else Ret (mkSubs (order st) fl)
    end.

Definition is_sub (s : sub) (o : option sub) : bool :=
  match o with Some x => sub_eqb x s | None => false end.
Definition somes (l : list (option sub)) : list sub :=
  flat_map (fun o => match o with Some x => [x] | None => [] end) l.
(** writes [l] into the front of [[None; 7]]; an eighth write is out of bounds *)
Definition pack (l : list (option sub)) : outcome (list (option sub)) :=
  if length l <=? 7 then Ret (l ++ repeat None (7 - length l)) else Panic.

(** parser/src/substitutions.rs:145-160; [!bit] on u8 is 255 - bit *)
Definition remove (st : subs) (s : sub) : outcome subs :=
  if contains st s then
    match pack (filter (fun o => negb (is_sub s o)) (order st)) with
    | Ret o => Ret (mkSubs o (N.land (flags st) (255 - bitflag s)))
    | Panic => Panic
    end
  else Ret st.

(** parser/src/substitutions.rs:162-177 *)
Definition prepend (st : subs) (s : sub) : outcome subs :=
  match pack (Some s :: map Some (filter (fun x => negb (sub_eqb x s)) (somes (order st)))) with
  | Ret o => Ret (mkSubs o (N.lor (flags st) (bitflag s)))
  | Panic => Panic
  end.

(** parser/src/substitutions.rs:179-194 *)
Definition append (st : subs) (s : sub) : outcome subs :=
  let l := somes (order st) in
  let l' := match rev l with
            | [] => [s]
            | x :: _ => if sub_eqb x s then l else l ++ [s]
            end in
  match pack (map Some l') with
  | Ret o => Ret (mkSubs o (N.lor (flags st) (bitflag s)))
  | Panic => Panic
  end.

(** parser/src/substitutions.rs:220-232 (cell styles: literal or any other) *)
Definition of_cell_style (literal : bool) : subs := if literal then verbatim else normal.

(** ** parser/src/tasks/customize_subs.rs *)

Fixpoint split_on (c : ascii) (s : bytes) : list bytes :=
  match s with
  | [] => [[]]
  | d :: r =>
      if Ascii.eqb d c then [] :: split_on c r
      else match split_on c r with
           | h :: t => (d :: h) :: t
           | [] => [[d]]
           end
  end.

(** customize_subs.rs:103-108 *)
Inductive strategy := Replace | Append | Prepend | Remove.
(** customize_subs.rs:111-122 *)
Inductive step_or_group :=
| GNone | GNormal | GVerbatim | GSpecialChars | GCallouts | GQuotes | GAttributes
| GReplacements | GMacros | GPostReplacements.

(** customize_subs.rs:124-140 *)
Definition group_of (n : bytes) : option step_or_group :=
  if bytes_eqb n ($"none") then Some GNone
  else if bytes_eqb n ($"normal") then Some GNormal
  else if bytes_eqb n ($"verbatim") then Some GVerbatim
  else if bytes_eqb n ($"specialchars") then Some GSpecialChars
  else if bytes_eqb n ($"callouts") then Some GCallouts
  else if bytes_eqb n ($"quotes") then Some GQuotes
  else if bytes_eqb n ($"attributes") then Some GAttributes
  else if bytes_eqb n ($"replacements") then Some GReplacements
  else if bytes_eqb n ($"macros") then Some GMacros
  else if bytes_eqb n ($"post_replacements") then Some GPostReplacements
  else None.

(** customize_subs.rs:17-23; called with [length part >= 4] *)
Definition classify (part : bytes) : strategy * bytes :=
  let n := length part in
  let fst_c := nth 0 part " "%char in
  let last_c := nth (n - 1) part " "%char in
  if Ascii.eqb fst_c "+"%char then (Append, skipn 1 part)
  else if Ascii.eqb last_c "+"%char then (Prepend, firstn (n - 1) part)
  else if Ascii.eqb fst_c "-"%char then (Remove, skipn 1 part)
  else (Replace, part).

(** the members of a group in the order the code visits them — customize_subs.rs:31-52, 62-97
    (the two tables are the same) *)
Definition members (g : step_or_group) : list sub :=
  match g with
  | GNone => []
  | GNormal => [SpecialChars; InlineFormatting; AttrRefs; CharReplacement; Macros; PostReplacement]
  | GVerbatim => [SpecialChars; CharReplacement]
  | GSpecialChars => [SpecialChars]
  | GCallouts => [Callouts]
  | GQuotes => [InlineFormatting]
  | GAttributes => [AttrRefs]
  | GReplacements => [CharReplacement]
  | GMacros => [Macros]
  | GPostReplacements => [PostReplacement]
  end.

(** customize_subs.rs:31, 54-60 *)
Definition modify (dbg : bool) (g : strategy) (st : subs) (s : sub) : outcome subs :=
  match g with
  | Replace | Append => insert dbg st s
  | Prepend => prepend st s
  | Remove => remove st s
  end.

Fixpoint modify_all (dbg : bool) (g : strategy) (st : subs) (l : list sub) : outcome subs :=
  match l with
  | [] => Ret st
  | s :: r => match modify dbg g st s with Ret st' => modify_all dbg g st' r | Panic => Panic end
  end.

(** customize_subs.rs:10-99: one comma-separated part *)
Definition apply_part (dbg : bool) (st : subs) (part : bytes) : outcome subs :=
  if length part <? 4 then Ret st
  else
    let (g, name) := classify part in
    match group_of name with
    | None => Ret st
    | Some grp => modify_all dbg g st (members grp)
    end.

Fixpoint apply_parts (dbg : bool) (st : subs) (l : list bytes) : outcome subs :=
  match l with
  | [] => Ret st
  | p :: r => match apply_part dbg st p with Ret st' => apply_parts dbg st' r | Panic => Panic end
  end.

(** customize_subs.rs:4-100; [value]: the block's [subs] attribute if present *)
Definition from_meta (dbg : bool) (current : subs) (value : option bytes) : outcome subs :=
  match value with
  | None => Ret current
  | Some v =>
      let start := if existsb (fun c => Ascii.eqb c "-"%char || Ascii.eqb c "+"%char) v then current else none in
      apply_parts dbg start (split_on ","%char v)
  end.

(** ** parser/src/tasks/parse_inlines/inline_utils.rs:190-211 *)
Definition pass_part (dbg : bool) (st : subs) (v : bytes) : outcome subs :=
  let is s := bytes_eqb v s in
  if is ($"c") || is ($"specialchars") then insert dbg st SpecialChars
  else if is ($"a") || is ($"attributes") then insert dbg st AttrRefs
  else if is ($"r") || is ($"replacements") then insert dbg st CharReplacement
  else if is ($"m") || is ($"macros") then insert dbg st Macros
  else if is ($"q") || is ($"quotes") then insert dbg st InlineFormatting
  else if is ($"v") || is ($"verbatim") then insert dbg st SpecialChars
  else if is ($"n") || is ($"normal") then Ret normal
  else if is ($"p") then insert dbg st PostReplacement
  else Ret st.
Fixpoint pass_parts (dbg : bool) (st : subs) (l : list bytes) : outcome subs :=
  match l with
  | [] => Ret st
  | p :: r => match pass_part dbg st p with Ret st' => pass_parts dbg st' r | Panic => Panic end
  end.
Definition from_pass_target (dbg : bool) (t : bytes) : outcome subs :=
  match t with [] => Ret none | _ => pass_parts dbg none (split_on ","%char t) end.
(** inline_utils.rs:213-219 *)
Definition from_pass_plus_len (n : nat) : subs := if n =? 3 then none else only_special_chars.

(** ** Histories *)
Inductive op := OInsert (s : sub) | ORemove (s : sub) | OPrepend (s : sub).
Definition step (dbg : bool) (st : subs) (o : op) : outcome subs :=
  match o with
  | OInsert s => insert dbg st s
  | ORemove s => remove st s
  | OPrepend s => prepend st s
  end.
Fixpoint run (dbg : bool) (st : subs) (h : list op) : outcome subs :=
  match h with
  | [] => Ret st
  | o :: r => match step dbg st o with Ret st' => run dbg st' r | Panic => Panic end
  end.
