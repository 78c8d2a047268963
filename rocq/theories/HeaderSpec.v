(** What C63 says about the lines of a document's header. A line is the list of its tokens. *)
From Verif Require Import Base BlockModel BlockSpec HeaderModel.
Import ListNotations.

Definition a_blank (x : list tok) : Prop := emptyish x = true.
Definition a_comment (x : list tok) : Prop := is_comment (line_of x) = true.
Definition an_entry (x : list tok) : Prop := exists t r, x = t :: r /\ tk t = AttrDef.
(** the delimiter of a comment block: the lexer makes it of four slashes (source_lexer.rs:158-200) *)
Definition a_mark (x : list tok) : Prop := exists t n, x = [t] /\ to_delimiter t = Some (Delim DComment n).
Definition group_ends (l : list (list tok)) : Prop := l = [] \/ exists x r, l = x :: r /\ a_blank x.

(** What may stand before the title, and the lines of it that are lost: those between the end of a comment block with a blank line in it and the next blank line. *)
Inductive front_matter : list (list tok) -> list (list tok) -> Prop :=
| fm_nil : front_matter [] []
| fm_blank x l k : a_blank x -> front_matter l k -> front_matter (x :: l) k
| fm_comment x l k : a_comment x -> front_matter l k -> front_matter (x :: l) k
| fm_entry x l k : an_entry x -> front_matter l k -> front_matter (x :: l) k
| fm_block o b c l k : a_mark o -> Forall (fun x => ~ a_mark x /\ ~ a_blank x) b -> a_mark c -> front_matter l k -> front_matter (o :: b ++ c :: l) k
| fm_block_lost o b c m l k : a_mark o -> Forall (fun x => ~ a_mark x) b -> Exists a_blank b -> a_mark c -> Forall (fun x => ~ a_blank x) m -> group_ends l ->
    front_matter l k -> front_matter (o :: b ++ c :: m ++ l) (m ++ k)
| fm_open o b : a_mark o -> Forall (fun x => ~ a_mark x) b -> front_matter (o :: b) [].

(** An attribute list, an anchor, a block title or a comment. *)
Definition a_meta (l : iline) : Prop := attr_list_line l = true \/ anchor_line l = true \/ chunk_title l = true \/ is_comment l = true.
Definition a_title (P : params) (l : iline) : Prop := heading_level P (toks l) = Some 0.
Definition starts_with_kind (k : kind) (ls : list iline) : Prop := exists l r t u, ls = l :: r /\ toks l = t :: u /\ tk t = k.
(** Lines that start a header: after comments, attribute lists and anchors comes a title or an attribute entry. *)
Definition starts_header (P : params) (ls : list iline) : Prop :=
  exists a l r, ls = a ++ l :: r /\ Forall (fun x => is_comment x = true \/ attr_list_line x = true \/ anchor_line x = true) a /\ (a_title P l \/ an_entry (toks l)).
Definition opt_list {A} (o : option A) : list A := match o with Some x => [x] | None => [] end.

(** Where the lines [L] of a source are after the header [h] has been read and the parser is in state [s]: *)
Inductive accounted (P : params) (rev : iline -> bool) (L : list (list tok)) (h : header) (s : pst) : Prop :=
(** there is no text at all *)
| acc_nothing : front_matter L (map toks (h_lost h)) -> peeked s = [] -> src s = [] -> h_title h = None -> h_author h = None -> h_revision h = None -> accounted P rev L h s
(** the first group of lines with text does not start a header, and will be read as part of the body *)
| acc_no_header F w : L = F ++ map toks (peeked s) ++ w ++ src s -> front_matter F (map toks (h_lost h)) -> peeked s <> [] -> blank w -> ~ starts_header P (peeked s) ->
    h_title h = None -> h_author h = None -> h_revision h = None -> accounted P rev L h s
(** the first group with text starts a header. It holds attribute lists and the like [m], a title or nothing [t], an author line, a revision line, attribute entries [e] and lines that are lost *)
| acc_header F k g m t e lost w : L = F ++ map toks g ++ w ++ src s -> front_matter F (map toks k) -> peeked s = [] -> blank w -> starts_header P g ->
    g = m ++ t ++ opt_list (h_author h) ++ opt_list (h_revision h) ++ e ++ lost -> h_lost h = k ++ lost ->
    Forall a_meta m -> Forall (a_title P) t -> length t = length (opt_list (h_title h)) ->
    (t = [] -> h_author h = None) -> (h_author h <> None -> starts_with_kind Word (opt_list (h_author h))) -> (t <> [] -> h_author h = None -> ~ starts_with_kind Word (e ++ lost)) ->
    (h_author h = None -> h_revision h = None) -> Forall (fun l => rev l = true) (opt_list (h_revision h)) ->
    Forall (fun l => an_entry (toks l)) e -> ~ starts_with_kind AttrDef lost -> accounted P rev L h s.
