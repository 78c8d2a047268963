(** Model of a whole conversion of an article with sections: as WholeModel.v (cli/src/main.rs:70-150, parser/src/parser.rs:257-297, eval/src/eval.rs:7-15), with a document title, sections and their ids.
    Only what is needed to follow texts with formatted words is translated between the trees of the parser and of eval. [None]: the document holds something else, or a part of the program panics. Documents are
    embedded, and no document attribute is set. *)
From Verif Require Import Base LexerModel LineModel InlineModel InlineSpec BlockModel BlockSpec HeaderModel WholeModel.
From Verif Require AttrsModel EvalModel HtmlModel SectionIdModel.
From Coq Require Import NArith.
Import ListNotations.
Open Scope list_scope.
Open Scope nat_scope.

(** ** Section ids *)
(** line.reassemble_src() of a heading (section_id.rs:30, line.rs:128-138), from its nodes. Simplified: without the marks of formatted words, which no id depends on (section_id.rs:58-95) *)
Fixpoint node_text (n : inode) : bytes :=
  match n with
  | NText x => x
  | NSpecial c => match c with SAmpersand => $"&" | SLessThan => $"<" | SGreaterThan => $">" end
  | NSpan _ _ ns => concat (map node_text ns)
  | _ => []
  end.
Definition nodes_text (ns : list inode) : bytes := concat (map node_text ns).
(** the headings of the sections in a block, in the order they are parsed in (parse_section.rs:88) *)
Fixpoint block_headings (x : blk) : list bytes :=
  match x with
  | BSection (Sect _ _ h bs) => nodes_text h :: flat_map block_headings bs
  | _ => []
  end.
Definition sect_headings (s : sect) : list bytes := block_headings (BSection s).
(** parse_section.rs:88 for all sections, without attributes and with the default prefix and separator. Texts are ASCII here, so their characters are their bytes. *)
Definition code_points (x : bytes) : SectionIdModel.text := map N_of_ascii x.
Definition heading_of (x : bytes) : SectionIdModel.heading := SectionIdModel.mkHeading (SectionIdModel.mkSettings false SectionIdModel.NotSet SectionIdModel.NotSet) None (code_points x).
Definition ids_of (U : SectionIdModel.unicode) (hs : list bytes) : option (list (option string)) :=
  match SectionIdModel.heading_ids U [] (map heading_of hs) with
  | Ret (Some l) => Some (map (option_map (fun x => string_of_list_ascii (map ascii_of_N x))) l)
  | _ => None
  end.

(** ** From the tree of the parser to the tree of eval *)
(** the label of a section says its level and how many sections are before it *)
Definition label (level k : nat) : nat := level + 8 * k.
Definition level_of (d : nat) : nat := d mod 8.
Definition index_of (d : nat) : nat := d / 8.
(** one after the other; [k]: the number of sections before *)
Definition in_turn {A B} (f : A -> nat -> option (B * nat)) : list A -> nat -> option (list B * nat) :=
  fix go l k :=
    match l with
    | [] => Some ([], k)
    | x :: r => match f x k with
                | Some (y, k) => match go r k with Some (ys, k) => Some (y :: ys, k) | None => None end
                | None => None
                end
    end.
(** ast/src/block.rs:4-60, ast/src/section.rs *)
Fixpoint block_at (x : blk) (k : nat) {struct x} : option (EvalModel.block * nat) :=
  match x with
  | BSection (Sect (Meta [] None) level h bs) =>
      match all_some (map inline_of h), in_turn block_at bs (S k) with
      | Some hs, Some (l, k') => Some (EvalModel.Block 0 None None None EvalModel.XSection (EvalModel.SectionContent (EvalModel.Section_ (label level k) hs l)), k')
      | _, _ => None
      end
  | _ => match block_of x with Some y => Some (y, k) | None => None end
  end.
Definition sect_at (s : sect) (k : nat) : option (EvalModel.section EvalModel.block * nat) :=
  match block_at (BSection s) k with Some (EvalModel.Block _ _ _ _ _ (EvalModel.SectionContent x), k) => Some (x, k) | _ => None end.
(** parser.rs:286-297, ast/src/doc_content.rs:49-55 *)
Definition content_at (c : content) : option (EvalModel.doc_content EvalModel.block) :=
  match c with
  | Blocks bs | Sections bs [] => match in_turn block_at bs 0 with Some (l, _) => Some (EvalModel.DBlocks l) | None => None end
  | Sections bs ss =>
      match in_turn block_at bs 0 with
      | Some (l, k) => match in_turn sect_at ss k with Some (m, _) => Some (EvalModel.DSections (match l with [] => None | _ => Some l end) m) | None => None end
      | None => None
      end
  | Parts _ _ _ _ => None
  end.
Definition content_headings (c : content) : list bytes :=
  match c with Blocks bs => flat_map block_headings bs | Sections bs ss => flat_map block_headings bs ++ flat_map sect_headings ss | Parts _ _ _ _ => [] end.

(** ** A conversion *)
(** no node has attributes or a title; sections have a level and an id *)
Definition article_details (ids : list (option string)) : HtmlModel.details :=
  HtmlModel.Details (fun _ _ => None) (fun _ _ => None) (fun _ _ => false) (fun _ _ => None) (fun _ _ => false) (fun _ => None) (fun _ => []) (fun _ => None)
    (fun _ => false) (fun _ => EvalModel.XParagraph) (fun _ => HtmlModel.CsDefault) (fun _ => EvalModel.PAuto) (fun _ => (""%string, AttrsModel.ABool false)) (fun _ => AttrsModel.with_embedded HtmlModel.empty_meta true)
    (fun _ _ => ""%string) (fun d k => if (k =? "id")%string then match nth_error ids (index_of d) with Some o => o | None => None end else None) (fun _ _ => []) (fun _ _ => false)
    (fun d k => if (k =? "level")%string then level_of d else d) (fun _ _ => ""%string) (fun id _ => id) (fun _ => None).
Section Convert.
(** the names of the plugins' macros; the parser's parameters and those of the header (HeaderModel.v); the Unicode tables (SectionIdModel.v); what the backend answers about index terms (EvalModel.v) *)
Variables (plugins : list bytes) (P : params) (author_set revision_line : iline -> bool) (U : SectionIdModel.unicode) (wants : list EvalModel.event -> bool).
Definition parse (x : bytes) : option (option (list inode) * content) :=
  match lex plugins x with
  | None => None
  | Some ls => match whole_document P author_set revision_line (enough_steps ls) (fresh normal ls) with
               | Yes (Header None _ _ _, c) _ => Some (None, c)
               | Yes (Header (Some (Meta [] None, t)) _ _ _, c) _ => Some (Some t, c)
               | _ => None
               end
  end.
Definition html_of (ids : list (option string)) (t : option (list EvalModel.inline)) (c : EvalModel.doc_content EvalModel.block) : option bytes :=
  match EvalModel.eval_document [] wants 1 (EvalModel.Document 0 true None None None t None c) with
  | EvalModel.Done s => match HtmlModel.output (article_details ids) (dbg (p_env P)) (EvalModel.out s) with Ret ps => Some (HtmlModel.bytes_of ps) | Panic => None end
  | _ => None
  end.
Definition title_of (t : option (list inode)) : option (option (list EvalModel.inline)) :=
  match t with None => Some None | Some ns => match all_some (map inline_of ns) with Some l => Some (Some l) | None => None end end.
Definition convert (x : bytes) : option bytes :=
  match parse x with
  | None => None
  | Some (t, c) => match ids_of U (content_headings c), title_of t, content_at c with
                   | Some ids, Some t, Some c => html_of ids t c
                   | _, _, _ => None
                   end
  end.
End Convert.
