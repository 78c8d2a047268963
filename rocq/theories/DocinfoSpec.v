(** Which docinfo files should be asked for, and what should come of them. *)
From Verif Require Import Base Text AttrsModel IncludeModel AttrRefsModel AttrRefsSpec LexerModel DocinfoModel.
From Verif Require PathModel.

(** The words of the docinfo attribute: the pieces between commas, without surrounding white space. An empty docinfo asks for the private files; the
    attributes docinfo1 and docinfo2 count if docinfo has no text. *)
Definition present (m : meta) (k : string) : Prop := exists v, get m k = Some v.
Definition no_text (m : meta) : Prop := get_str m "docinfo" = None \/ get_str m "docinfo" = Some [].
Inductive word (m : meta) : bytes -> Prop :=
| W_listed v part w : get_str m "docinfo" = Some v -> v <> [] -> piece comma v part -> trimmed part w -> w <> [] -> word m w
| W_docinfo2 w : no_text m -> present m "docinfo2" -> w = $"private" \/ w = $"shared" -> word m w
| W_docinfo1 : no_text m -> ~ present m "docinfo2" -> present m "docinfo1" -> word m ($"shared")
| W_empty : get_str m "docinfo" = Some [] -> ~ present m "docinfo2" -> ~ present m "docinfo1" -> word m ($"private").

Inductive place := Head | Header | Footer.
Definition place_name (p : place) : bytes := match p with Head => $"head" | Header => $"header" | Footer => $"footer" end.
Definition asks (m : meta) (kind : bytes) (p : place) : Prop := word m kind \/ word m (kind ++ $"-" ++ place_name p).

Definition suffix (m : meta) (s : bytes) : Prop := get_str m "outfilesuffix" = Some s \/ (get_str m "outfilesuffix" = None /\ s = $".html").
(** the shared file of a place: docinfo.html, docinfo-header.html, docinfo-footer.html *)
Definition shared_name (m : meta) (p : place) (f : bytes) : Prop :=
  exists s, suffix m s /\ f = $"docinfo" ++ match p with Head => [] | Header => $"-header" | Footer => $"-footer" end ++ s.
Definition private_name (m : meta) (p : place) (f : bytes) : Prop :=
  exists n s, get_str m "docname" = Some n /\ n <> [] /\ shared_name m p s /\ f = n ++ $"-" ++ s.

(** [fs] are the files to ask for at a place, in order *)
Definition files (m : meta) (p : place) (fs : list bytes) : Prop :=
  exists a c, fs = a ++ c /\
    ((asks m ($"shared") p /\ exists f, shared_name m p f /\ a = [f]) \/ (~ asks m ($"shared") p /\ a = [])) /\
    ((asks m ($"private") p /\ exists f, private_name m p f /\ c = [f]) \/
     ((~ asks m ($"private") p \/ ~ exists f, private_name m p f) /\ c = [])).

(** ** the content *)
(** what the nodes are, one by one *)
Inductive item := IByte (c : ascii) | ISym (s : symbol).
Definition items (l : list dnode) : list item := flat_map (fun n => match n with DText t => map IByte t | DSym s => [ISym s] end) l.

Definition writing (s : symbol) : bytes :=
  match s with
  | Trademark => $"(TM)" | Copyright => $"(C)" | Registered => $"(R)" | Ellipsis => $"..." | TripleDash => $"---" | EmDash => $"--"
  | SingleRightArrow => $"->" | DoubleRightArrow => $"=>" | SingleLeftArrow => $"<-" | DoubleLeftArrow => $"<="
  end.
(** A text read from left to right: where the writing of a symbol stands, it is the symbol (three dashes before two), and otherwise a byte. *)
Inductive symbols_read : bytes -> list item -> Prop :=
| S_end : symbols_read [] []
| S_sym k s its : (k = EmDash -> forall r, s <> $"-" ++ r) -> symbols_read s its -> symbols_read (writing k ++ s) (ISym k :: its)
| S_byte c s its : (forall k r, c :: s <> writing k ++ r) -> symbols_read s its -> symbols_read (c :: s) (IByte c :: its).

(** References: [line_refs m s out lost] says that [out] is [s] with its references replaced, and [lost] whether one of them has no text value *)
Definition has_text (m : meta) (n v : bytes) : Prop := exists s, get m (string_of_list_ascii n) = Some (AStr s) /\ v = b s.
Definition missing_value (m : meta) (v : bytes) : Prop := get_str m "attribute-missing" = Some v.
Definition stands_for (m : meta) (n v : bytes) : Prop :=
  (missing_value m ($"drop") \/ missing_value m ($"drop-line") -> v = []) /\
  (~ missing_value m ($"drop") -> ~ missing_value m ($"drop-line") -> v = reference n).
Inductive line_refs (m : meta) : bytes -> bytes -> bool -> Prop :=
| L_end : line_refs m [] [] false
| L_ref n v s out lost : val_name n -> has_text m n v -> line_refs m s out lost -> line_refs m (reference n ++ s) (v ++ out) lost
| L_lost n v s out lost : val_name n -> (forall x, ~ has_text m n x) -> stands_for m n v -> line_refs m s out lost -> line_refs m (reference n ++ s) (v ++ out) true
| L_byte c s out lost : (forall n r, val_name n -> c :: s <> reference n ++ r) -> line_refs m s out lost -> line_refs m (c :: s) (c :: out) lost.

(** the substitutions of docinfosubs *)
Definition sub_listed (m : meta) (w : bytes) : Prop := exists v part, get_str m "docinfosubs" = Some v /\ piece comma v part /\ trimmed part w.
Definition attributes_on (m : meta) : Prop := get_str m "docinfosubs" = None \/ sub_listed m ($"attributes").
Definition replacements_on (m : meta) : Prop := sub_listed m ($"replacements").
(** what a line becomes *)
Definition line_result (m : meta) (l : bytes) (its : list item) : Prop :=
  exists out lost,
    ((attributes_on m /\ line_refs m l out lost) \/ (~ attributes_on m /\ out = l /\ lost = false)) /\
    ((lost = true /\ missing_value m ($"drop-line") /\ its = []) \/
     ((lost = true -> ~ missing_value m ($"drop-line")) /\
      ((replacements_on m /\ symbols_read out its) \/ (~ replacements_on m /\ its = map IByte out)))).
(** the lines of a text that ends lines with LF, CR LF or CR; the last one may have no end *)
Definition line_end (e : bytes) : Prop := e = [LF] \/ e = [CR; LF] \/ e = [CR].
Definition lineless (l : bytes) : Prop := ~ In LF l /\ ~ In CR l.
Inductive text_lines : bytes -> list bytes -> Prop :=
| T_end : text_lines [] []
| T_last l : l <> [] -> lineless l -> text_lines l [l]
| T_line l e s ls : lineless l -> line_end e -> (e = [CR] -> forall r, s <> LF :: r) -> text_lines s ls -> text_lines (l ++ e ++ s) (l :: ls).
(** what a text becomes: what its lines become, one after the other *)
Definition text_result (m : meta) (text : bytes) (its : list item) : Prop :=
  exists ls parts, text_lines text ls /\ Forall2 (line_result m) ls parts /\ its = concat parts.

(** The fragment of a place: the texts of the files that could be read, with a line end between two. There is none if no file could be read. *)
Definition file_result (m : meta) (readable : bytes -> bytes -> Prop) (f : bytes) (r : option (list item)) : Prop :=
  match r with
  | Some its => exists text, readable f text /\ text_result m text its
  | None => ~ exists text, readable f text
  end.
Fixpoint found (rs : list (option (list item))) : list (list item) :=
  match rs with [] => [] | Some x :: r => x :: found r | None :: r => found r end.
Definition fragment (m : meta) (readable : bytes -> bytes -> Prop) (fs : list bytes) (frag : option (list dnode)) : Prop :=
  exists rs, Forall2 (file_result m readable) fs rs /\
    match frag with
    | None => found rs = []
    | Some ns => exists x r, found rs = x :: r /\ items ns = x ++ concat (map (fun y => IByte LF :: y) r)
    end.

(** The directory of docinfo files: docinfodir, in the base directory if it is relative. *)
Definition directory (m : meta) (base : option bytes) (dir : option PathModel.path) : Prop :=
  match get_str m "docinfodir", base with
  | None, None => dir = None
  | None, Some d => dir = Some (PathModel.new d)
  | Some i, None => dir = Some (PathModel.new i)
  | Some i, Some d =>
      (PathModel.is_absolute (PathModel.new i) = true -> dir = Some (PathModel.new i)) /\
      (PathModel.is_absolute (PathModel.new i) = false -> dir = Some (PathModel.join (PathModel.new d) (PathModel.new i)))
  end.
