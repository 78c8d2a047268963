(** What C65 says about cross references. *)
From Verif Require Import Base PathModel XrefModel.
From Coq Require Import Permutation.
Open Scope list_scope.

(** A target that names an id of the same document: it has no [#] other than one at its start, and is not the name of a file. *)
Definition names_id (t id : bytes) : Prop :=
  (t = id \/ t = "#"%char :: id) /\ id <> [] /\ ~ In "#"%char id /\ has_adoc_ext id = false /\ id <> $"__self__".
(** the references to an id *)
Definition refers (r : ref) (id : bytes) : Prop := names_id (r_target r) id.
(** where the id of a reference stands *)
Definition id_loc (r : ref) (id : bytes) : loc :=
  if bytes_eqb (r_target r) id then r_loc r else Loc (S (l_start (r_loc r))) (l_end (r_loc r)) (l_file (r_loc r)).
(** [r] is the last of the references to [id] *)
Definition last_reference (l : list ref) (r : ref) (id : bytes) : Prop := exists before after, l = before ++ r :: after /\ refers r id /\ forall r', In r' after -> ~ refers r' id.
(** the file has an anchor of this id *)
Definition anchored (anchors : list (bytes * place)) (id : bytes) (file : nat) : Prop := exists a, find_key id anchors = Some a /\ a_file a = file.
(** what is reported for a document: the hash map gives its entries in some order *)
Definition reports (sources : list source) (anchors : list (bytes * place)) (l : list ref) (reported : list (bytes * loc)) : Prop :=
  exists entries, Permutation entries (collect l) /\ reported = diagnose_invalid_xrefs false sources anchors entries.
(** A target that names an id in a file: the path of an AsciiDoc file, or one without extension. *)
Definition names_id_in_file (t path id : bytes) : Prop := t = path ++ "#"%char :: id /\ path <> [] /\ ~ In "#"%char path /\ (has_adoc_ext path = true \/ ext path = None) /\ id <> $"__self__".
(** the documents the links of a document lead to: itself, or another one *)
Definition in_this_document (href id : bytes) : Prop := href = "#"%char :: id.
(** all references to the same id are in the same file *)
Definition from_one_file (l : list ref) (id : bytes) (file : nat) : Prop := forall r, In r l -> refers r id -> l_file (r_loc r) = file.
(** The ids that are defined, in order, with what they are. *)
Definition def_id (d : definition) : bytes := match d with AnchorDef id _ _ => id | SectionDef id _ => id end.
(** A file that a path names: by its name, by the end of its path with the same extension, or by the end of its path without extension. *)
Definition names_file (path : bytes) (s : source) : Prop :=
  match s with
  | FileSource name full =>
      path = name \/ (exists dir, full = dir ++ path /\ (ext path = None \/ ext path = ext name)) \/ (exists dir, remove_ext full = dir ++ path /\ ext path = None)
  | _ => False
  end.
(** the first source that a path names *)
Definition first_named (path : bytes) (sources : list source) (i : nat) : Prop :=
  (exists s, nth_error sources i = Some s /\ names_file path s) /\ forall j s, j < i -> nth_error sources j = Some s -> ~ names_file path s.
(** Anchors without sections: the first definition of an id counts, and all others are reported unless they stand at the same place. *)
Definition first_definition (l : list definition) (id : bytes) (p : place) : Prop :=
  exists before at_ after, l = before ++ AnchorDef id at_ p :: after /\ forall d, In d before -> def_id d <> id.
(** all anchors stand at places of their own *)
Definition anchor_at (d : definition) : option loc := match d with AnchorDef _ _ p => a_loc p | SectionDef _ _ => None end.
Definition own_places (l : list definition) : Prop := Forall (fun d => match d with AnchorDef _ _ p => a_loc p <> None | SectionDef _ _ => False end) l /\ NoDup (map anchor_at l).
(** the reports for the definitions of ids that have been defined before *)
Fixpoint repeated (seen : list bytes) (l : list definition) : list duplicate :=
  match l with
  | [] => []
  | d :: l => (if existsb (bytes_eqb (def_id d)) seen then match d with AnchorDef _ at_ p => [if a_biblio p then DuplicateBiblio at_ else DuplicateAnchor at_] | SectionDef _ _ => [] end else []) ++
              repeated (def_id d :: seen) l
  end.
(** the path of an AsciiDoc file and the path without its extension *)
Definition adoc_path (path stem : bytes) : Prop := exists e, path = stem ++ "."%char :: e /\ In e [$"adoc"; $"asciidoc"; $"asc"; $"ad"].
(** what the name of an output file ends in: the attribute [relfilesuffix], or [outfilesuffix] *)
Definition suffix_of (m : settings) (s : bytes) : Prop := relfilesuffix m = Some s \/ (relfilesuffix m = None /\ (outfilesuffix m = Some s \/ (outfilesuffix m = None /\ s = []))).
Definition prefix_of (m : settings) (p : bytes) : Prop := relfileprefix m = Some p \/ (relfileprefix m = None /\ p = []).
