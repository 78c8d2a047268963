(** Model of a whole conversion of an article with sections, in which there are lists, delimited blocks and listings: ArticleModel.v (cli/src/main.rs:70-150, parser/src/parser.rs:257-297, eval/src/eval.rs:7-15)
    with the blocks of OutlineModel.v. [None]: the document holds something else, or a part of the program panics. Documents are embedded, and no document attribute is set. *)
From Verif Require Import Base LineModel InlineModel BlockModel BlockSpec HeaderModel WholeModel ArticleModel.
From Verif Require EvalModel SectionIdModel OutlineModel.
Import ListNotations.
Open Scope list_scope.
Open Scope nat_scope.

(** ast/src/block.rs:4-60, ast/src/section.rs: sections at the top or in sections; other blocks as in OutlineModel.v. Sections in other blocks, which parse_block.rs:46-51 does not make, are left out. [k]: the number of sections before *)
Fixpoint block_at (x : blk) (k : nat) {struct x} : option (EvalModel.block * nat) :=
  match x with
  | BSection (Sect (Meta [] None) level h bs) =>
      match all_some (map inline_of h), in_turn block_at bs (S k) with
      | Some hs, Some (l, k') => Some (EvalModel.Block 0 None None None EvalModel.XSection (EvalModel.SectionContent (EvalModel.Section_ (label level k) hs l)), k')
      | _, _ => None
      end
  | _ => match OutlineModel.block_in 0 x with Some y => Some (y, k) | None => None end
  end.
Definition sect_at (s : sect) (k : nat) : option (EvalModel.section EvalModel.block * nat) :=
  match block_at (BSection s) k with Some (EvalModel.Block _ _ _ _ _ (EvalModel.SectionContent x), k) => Some (x, k) | _ => None end.
(** parser.rs:286-297, ast/src/doc_content.rs:49-55 *)
Definition content_at (c : content) : option (EvalModel.doc_content EvalModel.block) :=
  match c with
  | Blocks bs | Sections bs [] => match in_turn block_at bs 0 with Some (l, _) => Some (EvalModel.DBlocks l) | None => None end
  | Sections bs ss =>
      match in_turn block_at bs 0 with
      | Some (l, k) => match in_turn sect_at ss k with Some (m, _) => Some (EvalModel.DSections (match l with [] => None | _ => Some l end) m) | None => None end
      | None => None
      end
  | Parts _ _ _ _ => None
  end.
(** as ArticleModel.convert (cli/src/main.rs:70-150, parser/src/tasks/parse_section.rs:88) *)
Definition convert (plugins : list bytes) (P : params) (author_set revision_line : iline -> bool) (U : SectionIdModel.unicode) (wants : list EvalModel.event -> bool) (x : bytes) : option bytes :=
  match ArticleModel.parse plugins P author_set revision_line x with
  | None => None
  | Some (t, c) => match ids_of U (content_headings c), title_of t, content_at c with
                   | Some ids, Some t, Some c => html_of P wants ids t c
                   | _, _, _ => None
                   end
  end.
(** What a conversion reports: the diagnostics of the header and of the blocks, and those of the inline parser (parser/src/diagnostic.rs). Left out: those of directives, attribute lists, attribute entries, tables and
    callouts, and those of diagnose_document.rs (C65). [None]: it panics. *)
Definition diagnostics (plugins : list bytes) (P : params) (author_set revision_line : iline -> bool) (x : bytes) : option (list problem * list ierror) :=
  match lex plugins x with
  | None => None
  | Some ls => match whole_document P author_set revision_line (enough_steps ls) (fresh normal ls) with Yes _ s => Some (probs s, errs_of (ist s)) | _ => None end
  end.
