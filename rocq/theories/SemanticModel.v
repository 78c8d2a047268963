(** Model of a whole conversion to semantic HTML: ManualModel.v with the backend of Html5sModel.v (cli/src/main.rs:106-150: the backend is chosen by an option; everything before it is the same). *)
From Verif Require Import Base LineModel InlineModel BlockModel BlockSpec HeaderModel WholeModel ArticleModel HtmlModel.
From Verif Require EvalModel SectionIdModel Html5sModel ManualModel.
Import ListNotations.
Open Scope list_scope.
Open Scope nat_scope.

(** eval/src/eval.rs:7-15, backend-html5s/src/html5s.rs. The details of nodes are those of ArticleModel.v: in particular no item has a first block that is not a list (html5s.rs:631-636), as in the documents of OutlineModel.v,
    in which items hold lists only. *)
Definition html5s_of (P : params) (wants : list EvalModel.event -> bool) (ids : list (option string)) (t : option (list EvalModel.inline)) (c : EvalModel.doc_content EvalModel.block) : option bytes :=
  match EvalModel.eval_document [] wants 1 (EvalModel.Document 0 true None None None t None c) with
  | EvalModel.Done s => match Html5sModel.output5 (article_details ids) (dbg (p_env P)) (EvalModel.out s) with Ret ps => Some (bytes_of ps) | Panic => None end
  | _ => None
  end.
(** as ManualModel.convert *)
Definition convert (plugins : list bytes) (P : params) (author_set revision_line : iline -> bool) (U : SectionIdModel.unicode) (wants : list EvalModel.event -> bool) (x : bytes) : option bytes :=
  match ArticleModel.parse plugins P author_set revision_line x with
  | None => None
  | Some (t, c) => match ids_of U (content_headings c), title_of t, ManualModel.content_at c with
                   | Some ids, Some t, Some c => html5s_of P wants ids t c
                   | _, _, _ => None
                   end
  end.
