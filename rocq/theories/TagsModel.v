(** Model of include::[tag=] and [tags=]: parser/src/tasks/directives/includes/tags.rs. *)
From Verif Require Import Base Utf8 Text LinesModel.

(** tags.rs:8-20 *)
Inductive tspec :=
| AllNonTagDirectiveLines | NoLines | AllTaggedRegions | AllUntaggedRegions
| Tag (t : bytes) | AllLinesExcl (t : bytes) | TagExclAllNested (t : bytes) | TagExclNested (incl excl : bytes)
| AllTaggedExcl (t : bytes) | AllUntaggedIncl (t : bytes).
(** tags.rs:288-320: the stack of open tags with the index of the line that opened them, innermost first *)
Definition tag_stack := list (bytes * nat).
Definition last_is (tag : bytes) (st : tag_stack) : bool := match st with (t, _) :: _ => bytes_eqb t tag | [] => false end.
Definition contains (tag : bytes) (st : tag_stack) : bool := existsb (fun e => bytes_eqb (fst e) tag) st.
Definition none_open (st : tag_stack) : bool := match st with [] => true | _ => false end.
(** tags.rs:28-43 *)
Definition satisfied_by (sp : tspec) (st : tag_stack) : bool :=
  match sp with
  | AllNonTagDirectiveLines => true
  | NoLines => false
  | AllTaggedRegions => negb (none_open st)
  | AllUntaggedRegions => none_open st
  | Tag t => contains t st
  | AllLinesExcl t => negb (contains t st)
  | TagExclAllNested t => last_is t st
  | TagExclNested i e => contains i st && negb (contains e st)
  | AllTaggedExcl t => negb (none_open st) && negb (contains t st)
  | AllUntaggedIncl t => none_open st || last_is t st
  end.
Definition is_excl (sp : tspec) : bool := match sp with AllLinesExcl _ => true | _ => false end.
(** tags.rs:50-58; [true] is Strategy::All *)
Definition strategy_all (sel : list tspec) : bool :=
  match sel with AllNonTagDirectiveLines :: _ => true | _ => forallb is_excl sel end.
(** tags.rs:60-73 *)
Definition expected_tag (sp : tspec) : list bytes :=
  match sp with Tag t | TagExclAllNested t | TagExclNested t _ | AllUntaggedIncl t => [t] | _ => [] end.
Definition expected_tags (sel : list tspec) : list bytes := flat_map expected_tag sel.
Definition has_all_lines (sel : list tspec) : bool := existsb (fun s => match s with AllNonTagDirectiveLines => true | _ => false end) sel.
Definition ends_no_lines (sel : list tspec) : bool := match rev sel with NoLines :: _ => true | _ => false end.
(** tags.rs:75-122 *)
Definition push (sel : list tspec) (sp : tspec) : list tspec :=
  let before := removelast sel in
  match last (map Some sel) None, sp with
  | Some (Tag p), AllLinesExcl t => before ++ [TagExclNested p t]
  | Some (Tag p), AllUntaggedRegions => before ++ [TagExclAllNested p]
  | Some AllTaggedRegions, AllLinesExcl t => before ++ [if has_all_lines before then AllLinesExcl t else AllTaggedExcl t]
  | Some AllUntaggedRegions, Tag t => before ++ [if ends_no_lines before then TagExclAllNested t else AllUntaggedIncl t]
  | Some AllNonTagDirectiveLines, Tag _ => before ++ [AllNonTagDirectiveLines]
  | Some NoLines, AllLinesExcl t => before ++ [AllTaggedExcl t]
  | Some (AllUntaggedIncl p), AllLinesExcl t => if bytes_eqb p t then before ++ [AllUntaggedRegions] else sel ++ [sp]
  | _, AllNonTagDirectiveLines => [AllNonTagDirectiveLines]
  | _, _ => sel ++ [sp]
  end.
(** [str::contains(char::is_whitespace)]; the text is valid UTF-8, so a match can only be at a character *)
Fixpoint has_white (s : bytes) : bool :=
  match s with [] => false | _ :: r => match strip_any white s with Some _ => true | None => has_white r end end.
(** tags.rs:129-156 *)
Definition parse_spec (s : bytes) : option tspec :=
  let part := trim s in
  if bytes_eqb part ($"**") then Some AllNonTagDirectiveLines
  else if bytes_eqb part ($"!**") then Some NoLines
  else if bytes_eqb part ($"*") then Some AllTaggedRegions
  else if bytes_eqb part ($"!*") then Some AllUntaggedRegions
  else
    let (tag, negated) := match part with "!"%char :: t => (t, true) | _ => (part, false) end in
    if bytes_eqb tag [] || has_white tag then None
    else Some (if negated then AllLinesExcl tag else Tag tag).
(** tags.rs:158-167 *)
Definition parse_selection (s : bytes) : list tspec :=
  fold_left push (flat_map (fun p => match parse_spec p with Some sp => [sp] | None => [] end) (split_by separator (trim s))) [].

(** tags.rs:329-343, TAG_DIRECTIVE_RX = \b(tag|end)::(\S+)\[\](?: |$|\r$). What follows the brackets is white space or the
    end of the line, so name and brackets together are a maximal run of non-space characters. The lines are valid UTF-8. *)
Inductive directive := Start (tag : bytes) | End (tag : bytes).
Definition word_byte (c : ascii) : bool :=
  let n := nat_of_ascii c in ((48 <=? n) && (n <=? 57)) || ((65 <=? n) && (n <=? 90)) || ((97 <=? n) && (n <=? 122)) || (n =? 95).
(** The last character of a text, given reversed. *)
Fixpoint last_char (r acc : bytes) : bytes :=
  match r with [] => acc | c :: r' => if continuation c then last_char r' (c :: acc) else c :: acc end.
(** Whether the text before (reversed) ends in a word character; [word] classifies characters outside ASCII (regex crate's \w). *)
Definition after_word (word : bytes -> bool) (before : bytes) : bool :=
  match before with [] => false | c :: _ => if between 0 127 c then word_byte c else word (last_char before []) end.
Fixpoint nonspace (s : bytes) : bytes :=
  match s with [] => [] | c :: r => match strip_any white s with Some _ => [] | None => c :: nonspace r end end.
Definition CR : ascii := ascii_of_nat 13.
Definition name_at (s : bytes) : option bytes :=
  let run := nonspace s in
  let rest := skipn (length run) s in
  match rev run with
  | "]"%char :: "["%char :: (_ :: _) as n => if bytes_eqb rest [] || bytes_eqb rest [CR] || starts_with ($" ") rest then Some (rev (skipn 2 (rev run))) else None
  | _ => None
  end.
Fixpoint tag_directive (word : bytes -> bool) (before s : bytes) : option directive :=
  let next := match s with [] => None | c :: r => tag_directive word (c :: before) r end in
  if after_word word before then next
  else if starts_with ($"tag::") s then match name_at (skipn 5 s) with Some n => Some (Start n) | None => next end
  else if starts_with ($"end::") s then match name_at (skipn 5 s) with Some n => Some (End n) | None => next end
  else next.

(** A reported problem; lines are numbered from 1. The problem about tags not found has no line of its own (it is reported at the
    attribute), which is line 0 here. *)
Record problem := mkProblem { p_line : nat; p_msg : bytes; p_start : nat; p_width : nat }.
Definition tag_problem (lines : list bytes) (idx : nat) (tag msg : bytes) : problem :=
  mkProblem (idx + 1) msg (match find_sub tag (nth idx lines []) with Some i => i | None => 0 end) (length tag).
Definition bt : bytes := $"`".
(** tags.rs:191-239. [all] are all lines of the file. Returned: the lines written, whether one that is not empty was selected, the
    problems, the stack and the tags still expected. *)
Definition selected (sel : list tspec) (st : tag_stack) : bool :=
  if strategy_all sel then forallb (fun sp => satisfied_by sp st) sel else existsb (fun sp => satisfied_by sp st) sel.
Fixpoint tag_loop (word : bytes -> bool) (sel : list tspec) (all : list bytes) (idx : nat) (st : tag_stack) (expected : list bytes) (lines : list bytes)
    : list bytes * bool * list problem * tag_stack * list bytes :=
  match lines with
  | [] => ([], false, [], st, expected)
  | l :: r =>
      match tag_directive word [] l with
      | Some (Start t) =>
          let '(out, ne, ps, st', ex) := tag_loop word sel all (S idx) ((t, idx) :: st) (filter (fun e => negb (bytes_eqb e t)) expected) r in
          (marker :: out, ne, ps, st', ex)
      | Some (End t) =>
          let st1 := if last_is t st then tl st else st in
          let p := if last_is t st then []
                   else if existsb (bytes_eqb t) (expected_tags sel) then
                     [tag_problem all idx t (match st with
                        | [] => $"Unexpected end tag " ++ bt ++ t ++ bt
                        | (o, _) :: _ => $"Mismatched end tag, expected " ++ bt ++ o ++ bt ++ $" but found " ++ bt ++ t ++ bt end)]
                   else [] in
          let '(out, ne, ps, st', ex) := tag_loop word sel all (S idx) st1 expected r in
          (marker :: out, ne, p ++ ps, st', ex)
      | None =>
          let '(out, ne, ps, st', ex) := tag_loop word sel all (S idx) st expected r in
          if selected sel st then (l :: out, ne || negb (bytes_eqb l []), ps, st', ex) else (out, ne, ps, st', ex)
      end
  end.
(** [sort_unstable] on strings: lexicographic by bytes. The expected tags are a set: no duplicates. *)
Fixpoint bytes_leb (x y : bytes) : bool :=
  match x, y with
  | [], _ => true
  | _ :: _, [] => false
  | a :: x', c :: y' => if (val a =? val c)%N then bytes_leb x' y' else (val a <? val c)%N
  end.
Fixpoint insert (x : bytes) (l : list bytes) : list bytes :=
  match l with [] => [x] | y :: r => if bytes_eqb x y then l else if bytes_leb x y then x :: l else y :: insert x r end.
Definition sorted_set (l : list bytes) : list bytes := fold_right insert [] l.
Fixpoint join_with (sep : bytes) (l : list bytes) : bytes :=
  match l with [] => [] | [x] => x | x :: r => x ++ sep ++ join_with sep r end.
(** tags.rs:182-279. Problems in the order reported: [self.err] records them (lenient) or returns the first (strict). *)
Definition select_tagged (word : bytes -> bool) (sel : list tspec) (src : bytes) : bytes * list problem :=
  let lines := split_byte LF src in
  let '(out, ne, ps, st, ex) := tag_loop word sel lines 0 [] (expected_tags sel) lines in
  let unclosed := match st with
                  | (t, i) :: _ => if existsb (bytes_eqb t) (expected_tags sel) then [tag_problem lines i t ($"Tag " ++ bt ++ t ++ bt ++ $" was not closed")] else []
                  | [] => [] end in
  let missing := match sorted_set ex with
                 | [] => []
                 | ts => [mkProblem 0 ($"Tag" ++ (if 1 <? length ts then $"s" else []) ++ $" " ++ bt ++ join_with ($"`, `") ts ++ bt ++ $" not found in included file") 0 0] end in
  (if ne then concat (map (fun l => l ++ [LF]) out) else [], ps ++ unclosed ++ missing).
(** tags.rs:170-190: tag= counts if it is a usable specification, else tags=; otherwise the text is left alone. *)
Definition select_tagged_lines (word : bytes -> bool) (tag tags : option bytes) (src : bytes) : bytes * list problem :=
  match match tag with Some t => if bytes_eqb t [] then None else parse_spec t | None => None end with
  | Some sp => select_tagged word [sp] src
  | None =>
      match tags with
      | Some ts => if bytes_eqb ts [] then (src, []) else select_tagged word (parse_selection ts) src
      | None => (src, [])
      end
  end.
