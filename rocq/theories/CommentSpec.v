(** What C79 says: the document without its comments. Nothing here depends on how documents are evaluated. *)
From Verif Require Import Base EvalModel.
From Verif Require LexerModel LineModel.
Import ListNotations.
Open Scope list_scope.

(** a comment without a title *)
Definition comment (b : block) : bool := match b with Block _ None _ _ XComment _ => true | _ => false end.
(** the parts that hold blocks: [each] says what becomes of a block, [all] what becomes of blocks one after the other. What describes a term stays what it is (C79_description_refuted). *)
Section Parts.
  Context {B : Type} (each : B -> B) (all : list B -> list B).
  Definition in_section (s : section B) : section B := Section_ (s_d s) (s_heading s) (all (s_blocks s)).
  Definition in_part (p : part B) : part B := Part (p_d p) (p_title p) (p_meta_title p) (option_map all (p_intro p)) (map in_section (p_sections p)).
  Definition in_item (i : item B) : item B := Item (i_d i) (i_principle i) (i_meta i) (all (i_blocks i)).
  Definition in_description (i : item B) : item B :=
    Item (i_d i) (i_principle i) (match i_meta i with MDesc l (Some b) => MDesc l (Some (each b)) | m => m end) (map each (i_blocks i)).
  Definition in_content (c : doc_content B) : doc_content B :=
    match c with
    | DBlocks l => DBlocks (all l)
    | DSections p l => DSections (option_map all p) (map in_section l)
    | DParts p o l c => DParts (option_map all p) (map in_section o) (map in_part l) (map in_section c)
    end.
  Definition in_document (d : document B) : document B :=
    Document (d_d d) (embedded d) (info_head d) (info_header d) (info_footer d) (d_title d) (d_toc d) (in_content (d_content d)).
  Definition in_cell (c : cell B) : cell B := Cell (c_d c) (match c_content c with CAsciiDoc d => CAsciiDoc (in_document d) | x => x end).
  Definition in_row (r : row B) : row B := Row (r_d r) (map in_cell (cells r)).
  Definition in_table (t : table B) : table B := Table (t_d t) (option_map in_row (header_row t)) (map in_row (body_rows t)) (option_map in_row (footer_row t)).
End Parts.
(** a block without the comments in it *)
Fixpoint without (b : block) : block :=
  let all l := filter (fun b => negb (comment b)) (map without l) in
  match b with
  | Block d title attr cite cx body =>
      Block d title attr cite cx
        match body with
        | Compound l => Compound (all l)
        | TableContent t => TableContent (in_table all t)
        | SectionContent s => SectionContent (in_section all s)
        | ListContent v n items => ListContent v n (match cx with XDescriptionList => map (in_description without) items | _ => map (in_item all) items end)
        | x => x
        end
  end.
Definition without_all (l : list block) : list block := filter (fun b => negb (comment b)) (map without l).
Definition without_comments (d : document block) : document block := in_document without_all d.
(** ** Comments in a source *)
(** a line that begins with two slashes, and not three; whatever comes after them *)
Definition comment_line (x : list LineModel.tok) : Prop := exists t r, x = t :: r /\ LineModel.tk t = LexerModel.ForwardSlashes /\ length (LineModel.tx t) = 2.
(** the line [////], and the lines that may stand between two of them *)
Definition slashes (x : list LineModel.tok) : Prop := exists i, x = [LineModel.TokI LexerModel.DelimiterLine $"////" i].
Definition hidden (x : list LineModel.tok) : Prop := match x with t :: _ => ~ (LineModel.tk t = LexerModel.DelimiterLine /\ LineModel.tx t = $"////") | [] => True end.
