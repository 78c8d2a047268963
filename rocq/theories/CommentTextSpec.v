(** What C79 says about comment lines in paragraphs: paragraphs of the texts of C67 with comment lines among them. *)
From Verif Require Import Base InlineModel InlineSpec WholeSpec WholeInlineProofs CommentSpec.
From Verif Require WholePieceProofs.
Import ListNotations.

(** nodes without the comments among them *)
Definition is_note (n : inode) : bool := match n with NComment _ => true | _ => false end.
Definition visible (ns : list inode) : list inode := filter (fun n => negb (is_note n)) ns.
(** Lines with comment lines among them, whatever is in those: all of them, those that are no comments, and what those say. ([of_line]: the tokens are those the lexer gives for the line, WholePieceProofs.lex_source.) *)
Inductive mixed : list iline -> list iline -> list line -> Prop :=
| NoLine : mixed [] [] []
| ALine ln l lns lns0 ls : of_line ln l -> l <> [] -> forallb WholePieceProofs.item_ok l = true -> mixed lns lns0 ls -> mixed (ln :: lns) (ln :: lns0) (l :: ls)
| ANote c lns lns0 ls : comment_line c -> mixed lns lns0 ls -> mixed (line_of c :: lns) lns0 ls.
