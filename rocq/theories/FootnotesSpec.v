(** What footnotes should give, said apart from the backends' buffers. *)
From Verif Require Import Base FootnotesModel.

(** A footnote as written: its id, if it has one, and its text. *)
Notation occurrence := (option bytes * bytes)%type.

(** [numbering os ns ds]: the footnotes [os], in document order, have the references [ns] (the number shown, and whether it is the footnote's own place), and
    [ds] are the footnotes that are listed at the end. A footnote that has no id, or an id no earlier one has, gets the next number and is listed; one that has
    the id of an earlier footnote shows that one's number. *)
Inductive numbering : list occurrence -> list (nat * bool) -> list occurrence -> Prop :=
| N_nil : numbering [] [] []
| N_first os ns ds id t :
    numbering os ns ds -> (id = None \/ ~ exists t', In (id, t') os) ->
    numbering (os ++ [(id, t)]) (ns ++ [(length ds + 1, true)]) (ds ++ [(id, t)])
| N_again os ns ds x t i t' n own :
    numbering os ns ds -> nth_error os i = Some (Some x, t') -> nth_error ns i = Some (n, own) ->
    numbering (os ++ [(Some x, t)]) (ns ++ [(n, false)]) ds.

(** no footnote in a node, and no footnote in a footnote *)
Inductive plain : node -> Prop :=
| P_txt t : plain (Txt t)
| P_wrap o c ch : Forall plain ch -> plain (Wrap o c ch).
Inductive flat : node -> Prop :=
| F_txt t : flat (Txt t)
| F_wrap o c ch : Forall flat ch -> flat (Wrap o c ch)
| F_foot id text : Forall plain text -> flat (Foot id text).
Definition flat_block (bl : block) : Prop :=
  match title bl with Some t => Forall plain t | None => True end /\ Forall flat (body bl).

(** [written st l os refs h]: the nodes [l], which have the footnotes [os], are written as [h] when their references are [refs] *)
Definition reference (st : style) (id : option bytes) (r : nat * bool) : bytes :=
  if snd r then ref_first st id (fst r) else ref_again st (fst r).
Inductive written (st : style) : list node -> list occurrence -> list (nat * bool) -> bytes -> Prop :=
| W_nil : written st [] [] [] []
| W_txt t l os rs h : written st l os rs h -> written st (Txt t :: l) os rs (t ++ h)
| W_wrap o c ch l os1 rs1 h1 os rs h :
    written st ch os1 rs1 h1 -> written st l os rs h ->
    written st (Wrap o c ch :: l) (os1 ++ os) (rs1 ++ rs) ((o ++ h1 ++ c) ++ h)
| W_foot id text th r l os rs h :
    written st text [] [] th -> written st l os rs h ->
    written st (Foot id text :: l) ((id, th) :: os) (r :: rs) (reference st id r ++ h).
Inductive written_blocks (st : style) : list block -> list occurrence -> list (nat * bool) -> bytes -> Prop :=
| WB_nil : written_blocks st [] [] [] []
| WB_cons op t mid bd cl th l os1 rs1 h1 os rs h :
    (match t with Some tl => exists x, written st tl [] [] x /\ th = title_open st ++ x ++ title_close st | None => th = [] end) ->
    written st bd os1 rs1 h1 -> written_blocks st l os rs h ->
    written_blocks st (Block op t mid bd cl :: l) (os1 ++ os) (rs1 ++ rs) (op ++ th ++ mid ++ h1 ++ cl ++ h).

(** the list at the end *)
Definition listed (st : style) (ds : list occurrence) : bytes :=
  match ds with
  | [] => []
  | _ => list_start st ++ concat (map (fun p => entry st (fst p) (snd (snd p))) (combine (seq 1 (length ds)) ds)) ++ list_end st
  end.
