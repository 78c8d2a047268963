(** What callouts and callout lists should give, said apart from the model's functions. *)
From Verif Require Import Base Text CalloutsModel.

(** A part of a document that ends with a callout list: the callouts of its blocks (a number, if one is written, and whether it is
    written as an XML comment) and the numbers written in the items of the list. *)
Record scope := Scope { pushes : list (option nat * bool); items : list (option nat) }.
Definition events_of (s : scope) : list event := map (fun p => Push (fst p) (snd p)) (pushes s) ++ [CList (items s)].

(** The numbers: the one that is written, and otherwise one more than the number before, the first one 1. *)
Fixpoint numbers (before : nat) (ns : list (option nat)) : list nat :=
  match ns with [] => [] | n :: rest => let x := match n with Some k => k | None => S before end in x :: numbers x rest end.

(** The callouts of the [k]th scope: counted from 0. *)
Fixpoint from (k i : nat) (ps : list (nat * bool)) : list callout :=
  match ps with [] => [] | (n, x) :: rest => Callout k i n x :: from k (S i) rest end.
Definition scope_callouts (k : nat) (ps : list (option nat * bool)) : list callout :=
  from k 0 (combine (numbers 0 (map fst ps)) (map snd ps)).

(** those of the callouts [cs] that bear the number [n], in their order *)
Inductive bearing (n : nat) : list callout -> list callout -> Prop :=
| B_end : bearing n [] []
| B_yes c cs out : number c = n -> bearing n cs out -> bearing n (c :: cs) (c :: out)
| B_no c cs out : number c <> n -> bearing n cs out -> bearing n (c :: cs) out.
(** What comes of an item with the number [n] where [expected] would be next: its number, exactly the callouts that bear it, and the two errors. *)
Definition item_right (cs : list callout) (expected n : nat) (o : item_out) : Prop :=
  conum o = n /\ bearing n cs (callouts_of o) /\
  (unexpected o = true <-> n <> expected) /\
  (not_found o = true <-> ~ exists c, In c cs /\ number c = n).
Fixpoint items_right (cs : list callout) (before : nat) (ns : list nat) (outs : list item_out) : Prop :=
  match ns, outs with
  | [], [] => True
  | n :: ns', o :: outs' => item_right cs (S before) n o /\ items_right cs n ns' outs'
  | _, _ => False
  end.

(** The outputs of a document of scopes, numbered from [k]. *)
Inductive right : nat -> list scope -> list output -> Prop :=
| R_end k : right k [] []
| R_scope k s rest its outs :
    items_right (scope_callouts k (pushes s)) 0 (numbers 0 (items s)) its ->
    right (S k) rest outs ->
    right k (s :: rest) (map OCallout (scope_callouts k (pushes s)) ++ OList its :: outs).

(** What a byte can count: the numbers are in 1..255, and the ones behind which another one comes at most 254. *)
Definition written_ok (ns : list (option nat)) : Prop := Forall (fun n => n <> Some 0) ns.
Definition numbers_fit (ns : list nat) : Prop :=
  Forall (fun n => n <= 255) ns /\ (forall front lastn, ns = front ++ [lastn] -> Forall (fun n => n <= 254) front).
Definition scope_ok (s : scope) : Prop :=
  written_ok (map fst (pushes s)) /\ written_ok (items s) /\
  numbers_fit (numbers 0 (map fst (pushes s))) /\ length (pushes s) <= 256 /\
  Forall (fun n => n <= 254) (numbers 0 (items s)).

Definition callout_id (c : callout) : nat * nat := (list_idx c, callout_idx c).
Fixpoint callouts_in (outs : list output) : list callout :=
  match outs with [] => [] | OCallout c :: r => c :: callouts_in r | OList _ :: r => callouts_in r end.

(** The ways to write a callout with the text [t] between its marks. *)
Definition written_callout (t lexeme : bytes) : Prop := lexeme = $"<" ++ t ++ $">" \/ lexeme = $"<!--" ++ t ++ $"-->".
