(** Model of a whole conversion of a text with lists: as WholeModel.v (cli/src/main.rs:70-150, parser/src/parser.rs:257-297, eval/src/eval.rs:7-15), with lists of bullets and numbers, with delimited blocks around blocks and with listings. The events are written as in ArticleModel.v; without sections there are no ids.
    [None]: the document holds something else, or a part of the program panics. Documents are embedded, and no document attribute is set. *)
From Verif Require Import Base LexerModel LineModel InlineModel InlineSpec BlockModel BlockSpec HeaderModel WholeModel.
From Verif Require AttrsModel EvalModel HtmlModel ListStackModel ArticleModel.
Import ListNotations.
Open Scope list_scope.
Open Scope nat_scope.

(** ast/src/list.rs:52-69, 114-126: the variant of a list and its context. Lists of numbers that are written out, of terms and of callouts are left out. *)
Definition variant_of (m : ListStackModel.marker) : option (nat * EvalModel.context) :=
  match m with
  | ListStackModel.Dot _ => Some (0, EvalModel.XOrderedList)
  | ListStackModel.Star _ | ListStackModel.Dash => Some (1, EvalModel.XUnorderedList)
  | _ => None
  end.
(** parser/src/tasks/parse_block.rs:294-421, ast/src/block.rs:69-110: the context of a delimited block around blocks *)
Definition compound_context (c : context) : option EvalModel.context :=
  match c with CExample => Some EvalModel.XExample | CSidebar => Some EvalModel.XSidebar | CBlockQuote => Some EvalModel.XBlockQuote | COpen => Some EvalModel.XOpen | _ => None end.
(** parse_block.rs:294-421, 348-371: the context of a delimited block with text that is shown as it is. Those with other text in them (passthrough, verse, comments) are left out. *)
Definition shown_context (c : context) : option EvalModel.context :=
  match c with CListing => Some EvalModel.XListing | CLiteral => Some EvalModel.XLiteral | _ => None end.
(** parse_list.rs:18-19, 44-50, 117-125 and ast/src/block.rs:4-60: the blocks of the tree, with the depth of lists, which is how many lists are open. [k]: how many are open around the block *)
Fixpoint block_in (k : nat) (x : blk) {struct x} : option EvalModel.block :=
  match x with
  | BList (None | Some (Meta [] None)) mk items =>
      match variant_of mk, all_some (map (item_in (S k)) items) with
      | Some (v, c), Some l => Some (EvalModel.Block 0 None None None c (EvalModel.ListContent v (S k mod 256) l))
      | _, _ => None
      end
  | BDelimited (Meta [] None) c _ (Compound bs) true =>
      match compound_context c, all_some (map (block_in k) bs) with Some c, Some l => Some (EvalModel.Block 0 None None None c (EvalModel.Compound l)) | _, _ => None end
  | BDelimited (Meta [] None) c _ (Simple ns) true =>
      match shown_context c, all_some (map inline_of ns) with Some c, Some l => Some (EvalModel.Block 0 None None None c (EvalModel.Simple l)) | _, _ => None end
  | _ => block_of x
  end
with item_in (k : nat) (i : item) {struct i} : option (EvalModel.item EvalModel.block) :=
  match i with
  | Item _ None ns bs =>
      match all_some (map inline_of ns), all_some (map (block_in k) bs) with
      | Some l, Some m => Some (EvalModel.Item 0 l EvalModel.MOther m)
      | _, _ => None
      end
  | _ => None
  end.
(** parser.rs:286-297, ast/src/doc_content.rs: a document without sections *)
Definition content_in (c : content) : option (list EvalModel.block) :=
  match c with Blocks bs | Sections bs [] => all_some (map (block_in 0) bs) | _ => None end.
Definition convert (plugins : list bytes) (P : params) (author_set revision_line : iline -> bool) (wants : list EvalModel.event -> bool) (x : bytes) : option bytes :=
  match parse plugins P author_set revision_line x with
  | None => None
  | Some c => match content_in c with None => None | Some l => ArticleModel.html_of P wants [] None (EvalModel.DBlocks l) end
  end.
