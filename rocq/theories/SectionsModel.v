(** Model of how headings and blocks become sections: parser/src/tasks/parse_section.rs, parse_book.rs, parse_book_part.rs, the
    beginning of parse_block.rs, and parser.rs:253-298. *)
From Verif Require Import Base.

(** A heading line: its level after leveloffset, whether a special section style (appendix, preface, ...) is attached to it, and
    a name to tell it from others. *)
Record head := mkHead { h_level : nat; h_special : bool; h_name : nat }.
(** What read_lines returns (parser.rs:156-192): contiguous lines, that is heading lines and perhaps some other block behind them,
    which takes all lines that are left. Simplifications: attribute lines belong to their heading; comments and discrete headings
    are blocks; lines inside delimited blocks are inside the block. *)
Definition chunk := (list head * option nat)%type.
(** parser.peeked_lines and the lexer. No chunk is empty. *)
Record input := mkInput { peeked : option chunk; unread : list chunk }.
Definition read_lines (s : input) : option (chunk * input) :=
  match peeked s with
  | Some c => Some (c, mkInput None (unread s))
  | None => match unread s with c :: r => Some (c, mkInput None r) | [] => None end
  end.
(** parser.rs:238-243 *)
Definition restore_lines (c : chunk) (s : input) : input :=
  match c with ([], None) => s | _ => mkInput (Some c) (unread s) end.
(** lexer.is_eof: lines that were read and put back are not seen *)
Definition at_eof (s : input) : bool := match unread s with [] => true | _ => false end.

(** [Sec h level blocks]; a block of another kind is only a name. *)
Inductive block := Txt (n : nat) | Sec (h : head) (level : nat) (bs : list block).
(** Calls of push_toc_node, and the errors reported (parse_section.rs:9-13, 84-94, parse_book_part.rs:52-57) *)
Inductive event := TocEntry (authored semantic name : nat) | OutOfSequence (name : nat) | LevelZero (name : nat) | EmptyPart (name : nat).
Record result_of (A : Type) := mkRes { val : A; rest : input; evs : list event }.
Arguments mkRes {A}. Arguments val {A}. Arguments rest {A}. Arguments evs {A}.

(** parse_section.rs:84-105 *)
Definition sequence_event (last authored semantic : nat) (h : head) : list event :=
  if last + 1 <? semantic then [OutOfSequence (h_name h)] else [TocEntry authored semantic (h_name h)].
(** parse_block.rs:6-52, called until it returns nothing. [last] is ctx.section_level. [None]: [fuel] was too small. *)
Fixpoint blocks (fuel last : nat) (s : input) : option (result_of (list block)) :=
  match fuel with
  | O => None
  | S f =>
      match read_lines s with
      | None => Some (mkRes [] s [])
      | Some (([], None), s') => blocks f last s'
      | Some (([], Some n), s') =>
          match blocks f last s' with Some x => Some (mkRes (Txt n :: val x) (rest x) (evs x)) | None => None end
      | Some ((h :: hs, t), s') =>
          if (h_level h <=? 1) || (h_level h <=? last) then Some (mkRes [] (restore_lines (h :: hs, t) s') [])
          else
            match blocks f (h_level h) (restore_lines (hs, t) s') with
            | None => None
            | Some x =>
                match blocks f last (rest x) with
                | None => None
                | Some y => Some (mkRes (Sec h (h_level h) (val x) :: val y) (rest y) (sequence_event last (h_level h) (h_level h) h ++ evs x ++ evs y))
                end
            end
      end
  end.
Definition size (c : chunk) : nat := length (fst c) + match snd c with Some _ => 1 | None => 0 end.
Definition left (s : input) : nat := match peeked s with Some c => S (size c) | None => 0 end + list_sum (map (fun c => S (size c)) (unread s)).
Definition all_blocks (last : nat) (s : input) : option (result_of (list block)) := blocks (S (left s)) last s.
(** parse_section.rs:22-52: the heading at the front *)
Definition peek_section (s : input) : option (head * chunk * input) :=
  match read_lines s with Some ((h :: hs, t), s') => Some (h, (hs, t), s') | _ => None end.
(** parse_section.rs:54-161 with ctx.section_level = 0 *)
Definition peeked_section (h : head) (c : chunk) (s : input) (semantic : nat) : option (result_of block) :=
  match all_blocks semantic (restore_lines c s) with
  | None => None
  | Some x => Some (mkRes (Sec h semantic (val x)) (rest x) (sequence_event 0 (h_level h) semantic h ++ evs x))
  end.
(** parse_section.rs:4-20, called until it returns nothing (parser.rs:293-296) *)
Fixpoint sections (fuel : nat) (book : bool) (s : input) : option (result_of (list block)) :=
  match fuel with
  | O => None
  | S f =>
      match peek_section s with
      | None => Some (mkRes [] s [])
      | Some (h, c, s') =>
          if (h_level h =? 0) && book then Some (mkRes [] s [])
          else
            match peeked_section h c s' (h_level h) with
            | None => None
            | Some x =>
                match sections f book (rest x) with
                | None => None
                | Some y => Some (mkRes (val x :: val y) (rest y) ((if h_level h =? 0 then [LevelZero (h_name h)] else []) ++ evs x ++ evs y))
                end
            end
      end
  end.
Definition all_sections (book : bool) (s : input) : option (result_of (list block)) := sections (S (left s)) book s.
(** parser.rs:287-298 *)
Definition sectioned (book : bool) (s : input) : option (result_of (list block * list block)) :=
  match all_blocks 0 s with
  | None => None
  | Some x => match all_sections book (rest x) with None => None | Some y => Some (mkRes (val x, val y) (rest y) (evs x ++ evs y)) end
  end.

(** parse_book.rs:80-95, called until it returns nothing *)
Fixpoint special_sects (fuel : nat) (s : input) : option (result_of (list block)) :=
  match fuel with
  | O => None
  | S f =>
      match peek_section s with
      | None => Some (mkRes [] s [])
      | Some (h, c, s') =>
          if h_special h then
            match peeked_section h c s' 1 with
            | None => None
            | Some x => match special_sects f (rest x) with None => None | Some y => Some (mkRes (val x :: val y) (rest y) (evs x ++ evs y)) end
            end
          else Some (mkRes [] s [])
      end
  end.
Definition all_special (s : input) : option (result_of (list block)) := special_sects (S (left s)) s.
(** parse_book_part.rs:6-88: title, intro, sections *)
Inductive part := Part (h : head) (intro sects : list block).
Definition book_part (s : input) : option (option (result_of part)) :=
  match peek_section s with
  | None => Some None
  | Some (h, c, s') =>
      if negb (h_level h =? 0) || h_special h then Some None
      else
        match sectioned true (restore_lines c s') with
        | None => None
        | Some x => Some (Some (mkRes (Part h (fst (val x)) (snd (val x))) (rest x)
            (TocEntry 0 0 (h_name h) :: evs x ++ match snd (val x) with [] => [EmptyPart (h_name h)] | _ => [] end)))
        end
  end.
Fixpoint parts (fuel : nat) (s : input) : option (result_of (list part)) :=
  match fuel with
  | O => None
  | S f =>
      match book_part s with
      | None => None
      | Some None => Some (mkRes [] s [])
      | Some (Some x) => match parts f (rest x) with None => None | Some y => Some (mkRes (val x :: val y) (rest y) (evs x ++ evs y)) end
      end
  end.
Definition all_parts (s : input) : option (result_of (list part)) := parts (S (left s)) s.

(** ast/src/doc_content.rs:5-23 *)
Inductive content := Blocks (bs : list block) | Sections (preamble sects : list block) | Parts (preamble opening : list block) (ps : list part) (closing : list block).
(** parse_book.rs:4-78. [Panic]: the unreachable!() of line 70 *)
Fixpoint parse_book (fuel : nat) (s : input) : option (outcome (result_of content)) :=
  match fuel with
  | O => None
  | S f =>
      match all_special s with
      | None => None
      | Some o =>
          if at_eof (rest o) && match val o with [] => false | _ => true end then Some (Ret (mkRes (Sections [] (val o)) (rest o) (evs o)))
          else
            match all_parts (rest o) with
            | None => None
            | Some ps =>
                match val ps with
                | _ :: _ =>
                    match all_special (rest ps) with
                    | None => None
                    | Some c => Some (Ret (mkRes (Parts [] (val o) (val ps) (val c)) (rest c) (evs o ++ evs ps ++ evs c)))
                    end
                | [] =>
                    match peek_section (rest o) with
                    | Some _ =>
                        match sectioned true (rest o) with
                        | None => None
                        | Some x => Some (Ret (mkRes (Sections (fst (val x)) (val o ++ snd (val x))) (rest x) (evs o ++ evs x)))
                        end
                    | None =>
                        match all_blocks 0 (rest o) with
                        | None => None
                        | Some x =>
                            if at_eof (rest x) then Some (Ret (mkRes (Blocks (val x)) (rest x) (evs o ++ evs x)))
                            else
                              match parse_book f (rest x) with
                              | None => None
                              | Some Panic => Some Panic
                              | Some (Ret y) =>
                                  match val y with
                                  | Blocks _ => Some Panic
                                  | Sections p q => Some (Ret (mkRes (Sections (val x ++ p) q) (rest y) (evs o ++ evs x ++ evs y)))
                                  | Parts p a q z => Some (Ret (mkRes (Parts (val x ++ p) a q z) (rest y) (evs o ++ evs x ++ evs y)))
                                  end
                              end
                        end
                    end
                end
            end
      end
  end.
(** parser.rs:266-277, into_doc_content (doc_content.rs:49-55). The inline document type is left out. *)
Definition parse_content (book : bool) (chunks : list chunk) : option (outcome (result_of content)) :=
  let s := mkInput None chunks in
  if book then parse_book (S (left s)) s
  else
    match sectioned false s with
    | None => None
    | Some x => Some (Ret (mkRes (match snd (val x) with [] => Blocks (fst (val x)) | _ => Sections (fst (val x)) (snd (val x)) end) (rest x) (evs x)))
    end.
