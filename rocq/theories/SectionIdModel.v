(** Model of section ids: parser/src/tasks/section_id.rs. Texts are lists of code points. *)
From Verif Require Import Base.
From Coq Require Import NArith.

Definition text := list N.
Definition text_eqb (x y : text) : bool := if list_eq_dec N.eq_dec x y then true else false.
(** Unicode tables, a parameter of every theorem, only asked about code points from 128 on: char::is_alphanumeric,
    char::to_lowercase and the regex class \d *)
Record unicode := mkUnicode { alphanumeric : N -> bool; to_lower : N -> list N; decimal_digit : N -> bool }.

Definition in_range (a c x : N) : bool := ((a <=? x) && (x <=? c))%N.
Definition ascii_letter (c : N) : bool := in_range 65 90 c || in_range 97 122 c.
Definition ascii_digit (c : N) : bool := in_range 48 57 c.
Definition ascii_alnum (c : N) : bool := ascii_letter c || ascii_digit c.
Definition ascii_lower (c : N) : N := if in_range 65 90 c then (c + 32)%N else c.
(** the match arm ' ' | '-' | '.' | ',' | '\t' *)
Definition gap_char (c : N) : bool := existsb (N.eqb c) [32; 45; 46; 44; 9]%N.
Definition head_is (s : text) (c : N) : bool := match s with d :: _ => N.eqb c d | [] => false end.

(** section_id.rs:58-95. [Again _]: one of the regular expressions has to be applied first and the loop begins anew. *)
Inductive scanned := Done (id : text) (last : N) | AgainWithoutIds | AgainWithoutEntities.
Fixpoint scan (U : unicode) (sep : option N) (no_ent no_ids : bool) (in_tag : bool) (last : N) (id : text) (cs : text) : scanned :=
  match cs with
  | [] => Done id last
  | c :: r =>
      if N.eqb c 60 && head_is r 60 then match r with _ :: r' => scan U sep no_ent no_ids in_tag last id r' | [] => Done id last end
      else if N.eqb c 60 then scan U sep no_ent no_ids true last id r
      else if N.eqb c 62 then scan U sep no_ent no_ids false last id r
      else if gap_char c then
        match sep with
        | Some s => if N.eqb s last then scan U sep no_ent no_ids in_tag last id r else scan U sep no_ent no_ids in_tag s (id ++ [s]) r
        | None => scan U sep no_ent no_ids in_tag last id r
        end
      else if N.eqb c 91 && head_is r 91 && negb no_ids then AgainWithoutIds
      else if N.eqb c 38 && negb no_ent then AgainWithoutEntities
      else if in_tag then scan U sep no_ent no_ids in_tag last id r
      else if ascii_alnum c then scan U sep no_ent no_ids in_tag (ascii_lower c) (id ++ [ascii_lower c]) r
      else if (128 <=? c)%N && alphanumeric U c then
        scan U sep no_ent no_ids in_tag (List.last (to_lower U c) last) (id ++ to_lower U c) r
      else scan U sep no_ent no_ids in_tag last id r
  end.

(** Regex::replace_all with the empty text: [front s] is how many characters a match at the front of [s] takes. *)
Fixpoint remove_matches (front : text -> option nat) (skip : nat) (s : text) : text :=
  match s with
  | [] => []
  | c :: t =>
      match skip with
      | S k => remove_matches front k t
      | O => match front s with Some (S n) => remove_matches front n t | _ => c :: remove_matches front 0 t end
      end
  end.
(** section_id.rs:142: two opening brackets up to the first two closing brackets of the line *)
Fixpoint to_close (s : text) : option nat :=
  match s with
  | [] => None
  | c :: t => if N.eqb c 93 && head_is t 93 then Some 2 else if N.eqb c 10 then None else option_map S (to_close t)
  end.
Definition aux_id (s : text) : option nat :=
  match s with
  | c :: d :: t => if N.eqb c 91 && N.eqb d 91 then option_map (fun n => n + 2) (to_close t) else None
  | _ => None
  end.
(** section_id.rs:134-139: the letters and digits of an entity are matched greedily; as their classes are disjoint from what
    must follow, giving any back never helps. *)
Fixpoint run_of (p : N -> bool) (s : text) : nat := match s with c :: t => if p c then S (run_of p t) else 0 | [] => 0 end.
Definition any_digit (U : unicode) (c : N) : bool := ascii_digit c || ((128 <=? c)%N && decimal_digit U c).
Definition hex_digit (U : unicode) (c : N) : bool := any_digit U c || in_range 65 70 c || in_range 97 102 c.
Definition semicolon (s : text) (n : nat) : option nat := if head_is (skipn n s) 59 then Some (n + 1) else None.
Definition entity (U : unicode) (s : text) : option nat :=
  match s with
  | 38%N :: t =>
      let m :=
        if head_is t 35 then
          let n := run_of (any_digit U) (skipn 1 t) in
          let h := run_of (hex_digit U) (skipn 2 t) in
          if (2 <=? n) && (n <=? 6) then semicolon t (n + 1)
          else if head_is (skipn 1 t) 120 && (2 <=? h) && (h <=? 5) then semicolon t (h + 2) else None
        else
          let n := run_of ascii_letter t in
          let d := run_of (any_digit U) (skipn n t) in
          if (2 <=? n) && (d <=? 2) then semicolon t (n + d) else None in
      option_map S m
  | _ => None
  end.

(** section_id.rs:45-95 with its recursive calls. [None]: [rounds] was too small. *)
Fixpoint characters (U : unicode) (prefix : text) (sep : option N) (rounds : nat) (no_ent no_ids : bool) (line : text) : option (text * N) :=
  match rounds with
  | O => None
  | S n =>
      match scan U sep no_ent no_ids false (List.last prefix 0%N) prefix line with
      | Done id last => Some (id, last)
      | AgainWithoutIds => characters U prefix sep n no_ent true (remove_matches aux_id 0 line)
      | AgainWithoutEntities => characters U prefix sep n true no_ids (remove_matches (entity U) 0 line)
      end
  end.

Definition numeral (n : nat) : text := map N_of_ascii (b (dec n)).
Definition used_id (used : list text) (id : text) : bool := existsb (text_eqb id) used.
Definition sep_text (sep : option N) : text := match sep with Some c => [c] | None => [] end.
(** section_id.rs:117-131. [None]: [fuel] was too small. The counter is an i32, so it overflows after two thousand million ids. *)
Fixpoint sequence (used : list text) (id : text) (sep : option N) (fuel i : nat) : option text :=
  match fuel with
  | O => None
  | S f =>
      let sequenced := id ++ sep_text sep ++ numeral i in
      if used_id used sequenced then sequence used id sep f (S i) else Some sequenced
  end.
Definition sequence_sectid (used : list text) (id : text) (sep : option N) : option text := sequence used id sep (S (length used)) 2.

(** section_id.rs:97-114. [Panic]: slicing behind the first byte of a separator that has several *)
Definition same_char (sep : option N) (c : N) : bool := match sep with Some s => N.eqb s c | None => false end.
Definition finish (used : list text) (prefix : text) (sep : option N) (id : text) (last : N) : outcome (option text) :=
  let id := if same_char sep last then removelast id else id in
  match sep, id with
  | Some _, [] => Ret (sequence_sectid used [] sep)
  | _, _ =>
      let strip := match prefix, sep with [], Some s => head_is id s | _, _ => false end in
      if strip && match sep with Some s => (128 <=? s)%N | None => false end then Panic
      else
        let id := if strip then tl id else id in
        Ret (if used_id used id then sequence_sectid used id sep else Some id)
  end.
Definition autogen_sect_id (U : unicode) (used : list text) (prefix : text) (sep : option N) (line : text) : outcome (option text) :=
  match characters U prefix sep 3 false false line with
  | None => Ret None
  | Some (id, last) => finish used prefix sep id last
  end.

(** document.meta.get of idseparator and idprefix *)
Inductive setting := NotSet | Flag (v : bool) | Text (t : text).
Record settings := mkSettings { sectids_off : bool; idseparator : setting; idprefix : setting }.
(** section_id.rs:20-29 *)
Definition id_sep (st : settings) : option N :=
  match idseparator st with Flag true => None | Text [] => None | Text (c :: _) => Some c | _ => Some 95%N end.
Definition id_prefix (st : settings) : text :=
  match idprefix st with Flag true => [] | Text t => t | _ => [95%N] end.
(** section_id.rs:7-33: the id, and ctx.anchor_ids afterwards. The inner [None]: out of fuel. *)
Definition section_id (U : unicode) (st : settings) (explicit : option text) (title : text) (used : list text)
  : outcome (option (option text * list text)) :=
  if sectids_off st then Ret (Some (None, used))
  else match explicit with
  | Some id => Ret (Some (Some id, id :: used))
  | None =>
      match autogen_sect_id U used (id_prefix st) (id_sep st) title with
      | Panic => Panic
      | Ret None => Ret None
      | Ret (Some id) => Ret (Some (Some id, id :: used))
      end
  end.
(** All headings of a document in the order they are parsed, those of AsciiDoc table cells among them: cells share the set of
    ids (parse_context.rs:115). *)
Record heading := mkHeading { h_settings : settings; h_explicit : option text; h_title : text }.
Fixpoint heading_ids (U : unicode) (used : list text) (hs : list heading) : outcome (option (list (option text))) :=
  match hs with
  | [] => Ret (Some [])
  | h :: r =>
      match section_id U (h_settings h) (h_explicit h) (h_title h) used with
      | Panic => Panic
      | Ret None => Ret None
      | Ret (Some (id, used')) =>
          match heading_ids U used' r with Ret (Some ids) => Ret (Some (id :: ids)) | x => x end
      end
  end.
