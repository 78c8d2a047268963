(** Model of the header of a document: parser/src/tasks/parse_doc_header.rs:5-85 and 109-200, and of parser.rs:257-277, on top of BlockModel.v, with its simplifications.
    Left out: locations; the effect of attribute entries (AttrDefModel.v) and of the title, the authors and the revision on the attributes (AuthorLineModel.v, RevLineModel.v, AttrsModel.v);
    the table of contents (87-107); the document type inline (parser.rs:262-270). *)
From Verif Require Export BlockModel.
Import ListNotations.

(** line.rs:298-309 *)
Definition comment_delimiter (l : iline) : bool := match toks l with [t] => match to_delimiter t with Some d => dkind_beq (dk d) DComment | None => false end | _ => false end.
(** line.rs:1013-1015 *)
Definition attr_decl (l : iline) : bool := current_is AttrDef (toks l).
(** 189-199 *)
Fixpoint skip_attrs (ls : list iline) : list iline := match ls with l :: r => if attr_decl l then skip_attrs r else ls | [] => [] end.

(** 75-84: what is left of the group that holds the end of a comment block; [None]: there is no end *)
Fixpoint comment_end (fuel : nat) (s : pst) : option (list iline) * pst :=
  match fuel with
  | 0 => (None, s)
  | S f => let (ls, s) := read_lines s in
           match ls with
           | [] => (None, s)
           | _ => match drop_until comment_delimiter ls with _ :: more => (Some more, s) | [] => comment_end f s end
           end
  end.
Definition size (s : pst) : nat := length (peeked s) + length (src s).

(** 26-85: the first lines that are not comments, attribute entries or comment blocks. [lost] is not in the code: lines that are dropped.
    82, 49: what follows the end of a comment block in its group is dropped, but not if the group also holds its start. *)
Fixpoint front (fuel : nat) (P : params) (lost : list iline) (s : pst) : out (list iline * list iline) :=
  match fuel with
  | 0 => More
  | S f =>
      let (ls, s) := read_lines s in
      match ls with
      | [] => Yes ([], lost) s
      | _ =>
          match drop_comments ls with
          | [] => front f P lost s
          | (l :: r) as ls =>
              if attr_decl l then take (_, s) := restore_lines P (skip_attrs ls) s in front f P lost s
              else if comment_delimiter l then
                match drop_until comment_delimiter r with
                | _ :: more => take (_, s) := restore_lines P more s in front f P lost s
                | [] => let (x, s) := comment_end (S (size s)) s in
                        match x with
                        | Some more => take (_, s) := restore_lines P [] s in front f P (lost ++ more) s
                        | None => front f P lost (problem_at NeverClosed s)
                        end
                end
              else Yes (ls, lost) s
          end
      end
  end.

(** 169-180 *)
Fixpoint is_doc_header (P : params) (ls : list iline) : bool :=
  match ls with
  | [] => false
  | l :: r => match heading_level P (toks l) with
              | Some 0 => true
              | _ => if is_comment l || attr_list_line l || anchor_line l then is_doc_header P r else attr_decl l
              end
  end.
(** 127-136 *)
Definition title_text (l : iline) : outcome iline :=
  match toks l with
  | [] => Panic
  | t :: _ => if is_k EqualSigns t then Ret (adv l (skipn 2 (toks l)))
              else match discard_assert Whitespace (skipn (hashes (toks l)) (toks l)) with Ret m => Ret (adv l m) | Panic => Panic end
  end.

(** [h_lost] is not in the code: the lines of the header's groups that are dropped *)
Record header := Header { h_title : option (meta * list inode); h_author : option iline; h_revision : option iline; h_lost : list iline }.
Definition first_line (f : iline -> bool) (ls : list iline) : option iline * list iline :=
  match ls with l :: r => if f l then (Some l, r) else (None, ls) | [] => (None, []) end.
Section Header.
(** [author_set]: whether an author is known once the author line has been read (159); [revision_line]: parse_revision_line takes the line *)
Variables (P : params) (author_set : iline -> bool) (revision_line : iline -> bool).
(** 109-167: the title, author and revision, and the lines left *)
Definition title_author_revision (ls : list iline) (s : pst) : out (option (meta * list inode) * option iline * option iline * list iline) :=
  match ls with
  | [] => Yes (None, None, None, []) s
  | _ =>
      take (x, s) := chunk_meta P ls s in
      match snd x with
      | [] => take (_, s) := restore_meta P (fst x) s in Yes (None, None, None, []) s
      | l :: r =>
          match heading_level P (toks l) with
          | Some 0 =>
              match title_text l with
              | Panic => Panics
              | Ret t =>
                  take (ns, s) := inlines P [t] s in
                  let (au, r) := first_line (fun l => current_is Word (toks l)) r in
                  let (rv, r) := match au with
                                 | Some a => if author_set a then first_line (fun l => (current_is Word (toks l) || current_is Digits (toks l)) && revision_line l) r else (None, r)
                                 | None => (None, r)
                                 end in
                  Yes (Some (fst x, fst ns), au, rv, r) s
              end
          | _ => take (_, s) := restore_meta P (fst x) s in Yes (None, None, None, l :: r) s
          end
      end
  end.
(** 5-24 *)
Definition document_header (s : pst) : out header :=
  take (x, s) := front (S (S (size s))) P [] s in
  match fst x with
  | [] => Yes (Header None None None (snd x)) s
  | b => if is_doc_header P b then
           take (y, s) := title_author_revision (skip_attrs b) s in
           let '(t, au, rv, r) := y in
           Yes (Header t au rv (snd x ++ skip_attrs r)) s
         else Yes (Header None None None (snd x)) (with_peeked b s)
  end.
(** parser.rs:259-277: a document *)
Definition whole_document (fuel : nat) (s : pst) : out (header * content) :=
  take (h, s) := document_header s in
  take (c, s) := document fuel P s in
  Yes (h, c) s.
End Header.
