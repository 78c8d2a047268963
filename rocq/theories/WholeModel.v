(** Model of a whole conversion, from the text of a source to its HTML: cli/src/main.rs:70-150, parser/src/parser.rs:257-297 and eval/src/eval.rs:7-15 on top of LexerModel.v (tokens), InlineModel.v,
    BlockModel.v and HeaderModel.v (blocks), EvalModel.v (backend calls) and HtmlModel.v (HTML).
    Only what is needed to follow texts with formatted words is translated between the trees of the parser and of eval: paragraphs without attributes whose inline nodes are text, line ends, special characters and
    bold, italic and monospaced spans without attributes. [None]: the document holds something else, or a part of the program panics. Documents are embedded, and no document attribute is set. *)
From Verif Require Import Base LexerModel LineModel InlineModel InlineSpec BlockModel BlockSpec HeaderModel.
From Verif Require AttrsModel EvalModel HtmlModel.
Import ListNotations.
Open Scope list_scope.

(** parser.rs:106-150 where the source has no attribute entries, attribute references and directives: the tokens up to the next end of line; nothing after the last one. [cur]: the line so far *)
Fixpoint source_lines (cur l : list tok) : list (list tok) :=
  match l with
  | [] => match cur with [] => [] | _ => [cur] end
  | t :: r => if is_k Newline t then cur :: source_lines [] r else source_lines (cur ++ [t]) r
  end.
(** the lines of a source; [placed] is in InlineSpec.v *)
Definition lex (plugins : list bytes) (x : bytes) : option (list (list tok)) :=
  match tokens plugins (S (length x)) (from_bytes x) with Ret (Some ts) => Some (source_lines [] (map (placed x) ts)) | _ => None end.

(** ** From the tree of the parser to the tree of eval *)
Definition all_some {A} (l : list (option A)) : option (list A) := fold_right (fun o r => match o, r with Some x, Some m => Some (x :: m) | _, _ => None end) (Some []) l.
Definition char_of (c : special_kind) : nat := match c with SAmpersand => 0 | SLessThan => 1 | SGreaterThan => 2 end.
Definition span_of (k : span_kind) : option EvalModel.span_kind := match k with Bold => Some EvalModel.SBold | Italic => Some EvalModel.SItalic | Mono => Some EvalModel.SMono | _ => None end.
(** ast/src/inline.rs:17-110. The label of a special character says which one it is. *)
Fixpoint inline_of (n : inode) : option EvalModel.inline :=
  match n with
  | NText x => Some (EvalModel.IText (string_of_list_ascii x))
  | NNewline => Some (EvalModel.ILeaf "joining_newline" 0)
  | NSpecial c => Some (EvalModel.ILeaf "inline_specialchar" (char_of c))
  | NSpan k None ns => match span_of k, all_some (map inline_of ns) with Some k, Some l => Some (EvalModel.ISpan k 0 l) | _, _ => None end
  | _ => None
  end.
(** ast/src/block.rs:4-60 *)
Definition block_of (x : blk) : option EvalModel.block :=
  match x with
  | BParagraph (Meta [] None) CParagraph ns =>
      match all_some (map inline_of ns) with Some l => Some (EvalModel.Block 0 None None None EvalModel.XParagraph (EvalModel.Simple l)) | None => None end
  | _ => None
  end.
(** parser.rs:286-297, ast/src/doc_content.rs: a document without sections *)
Definition content_of (c : content) : option (list EvalModel.block) :=
  match c with Blocks bs | Sections bs [] => all_some (map block_of bs) | _ => None end.

(** ** A conversion *)
(** no node has attributes, a title or an id *)
Definition plain_details : HtmlModel.details :=
  HtmlModel.Details (fun _ _ => None) (fun _ _ => None) (fun _ _ => false) (fun _ _ => None) (fun _ _ => false) (fun _ => None) (fun _ => []) (fun _ => None)
    (fun _ => false) (fun _ => EvalModel.XParagraph) (fun _ => HtmlModel.CsDefault) (fun _ => EvalModel.PAuto) (fun _ => (""%string, AttrsModel.ABool false)) (fun _ => AttrsModel.with_embedded HtmlModel.empty_meta true)
    (fun _ _ => ""%string) (fun _ _ => None) (fun _ _ => []) (fun _ _ => false) (fun d _ => d) (fun _ _ => ""%string) (fun id _ => id) (fun _ => None).
Section Convert.
(** the names of the plugins' macros; the parser's parameters and those of the header (HeaderModel.v); what the backend answers when it is asked about index terms (EvalModel.v) *)
Variables (plugins : list bytes) (P : params) (author_set revision_line : iline -> bool) (wants : list EvalModel.event -> bool).
Definition parse (x : bytes) : option content :=
  match lex plugins x with
  | None => None
  | Some ls => match whole_document P author_set revision_line (enough_steps ls) (fresh normal ls) with
               | Yes (Header None _ _ _, c) _ => Some c
               | _ => None
               end
  end.
Definition html_of (l : list EvalModel.block) : option bytes :=
  match EvalModel.eval_document [] wants 1 (EvalModel.Document 0 true None None None None None (EvalModel.DBlocks l)) with
  | EvalModel.Done s => match HtmlModel.output plain_details (dbg (p_env P)) (EvalModel.out s) with Ret ps => Some (HtmlModel.bytes_of ps) | Panic => None end
  | _ => None
  end.
Definition convert (x : bytes) : option bytes :=
  match parse x with
  | None => None
  | Some c => match content_of c with None => None | Some l => html_of l end
  end.
End Convert.
