(** Property C38: the line token queue refines a plain list. *)
From Verif Require Import Base DeqModel DeqSpec DeqProofs.

(** For every initial content and every history the list semantics allows, the queue returns what the
    list returns, never panics, and afterwards every observer reports the list. *)
Theorem C38_refines_list :
  forall T (dflt : T) l h xs l' k',
    list_run (l, 0) h xs (l', k') ->
    exists d, run dflt (from_vec l) h = Ret (xs, d) /\
      len d = Ret (length l') /\ is_empty d = Ret (match l' with [] => true | _ => false end) /\
      iter d = l' /\ as_slice d = Ret l' /\ first d = nth_error l' 0 /\ last d = Ret (nth_error (rev l') 0) /\
      (forall i, get d i = nth_error l' i).
Proof. exact (@refinement). Qed.
Print Assumptions C38_refines_list.

(** The list semantics is a function, and it is defined except in three situations. *)
Theorem C38_list_semantics :
  forall T,
  (forall s (o : op T) x1 s1 x2 s2, list_step s o x1 s1 -> list_step s o x2 s2 -> x1 = x2 /\ s1 = s2) /\
  (forall (l : list T) k o,
    (exists x s', list_step (l, k) o x s') <->
    match o with
    | ORemoveFirst => l <> []
    | OTruncate _ => k = 0
    | ORestoreFront _ => k <> 0
    | _ => True
    end).
Proof. exact (fun T => conj (@list_step_fun T) (@list_step_total T)). Qed.
Print Assumptions C38_list_semantics.

Example C38_nonvacuous :
  list_run ([1; 2; 3], 0) [OPopFront; OPush 4; ORestoreFront 9; OPopFront; OPop; OPopFront; OPopFront; OPopFront]
    [Some 1; None; None; Some 9; Some 4; Some 2; Some 3; None] ([], 3).
Proof.
  repeat (econstructor; [first [apply (ls_pop [2; 3])|constructor]|]). constructor.
Qed.

(** Findings: outside those situations the queue does not behave like a list.
    Truncating after a pop keeps too little (here: truncate-to-1 of a three-element rest keeps nothing),
    truncating below the consumed count or dropping the first of an empty queue makes the length
    computation underflow. *)
Theorem C38_truncate_after_pop_refuted :
  (exists d, run 0 (from_vec [1; 2; 3; 4]) [OPopFront; OTruncate 1] = Ret ([Some 1; None], d) /\
             iter d = [] /\ firstn 1 [2; 3; 4] = [2]) /\
  (exists d, run 0 (from_vec [1; 2; 3; 4]) [OPopFront; OPopFront; OTruncate 1] = Ret ([Some 1; Some 2; None], d) /\
             len d = Panic).
Proof. split; eexists; repeat split. Qed.
Print Assumptions C38_truncate_after_pop_refuted.

Theorem C38_remove_first_of_empty_refuted :
  exists d, run 0 (from_vec []) [ORemoveFirst] = Ret ([None], d) /\ len d = Panic /\ iter d = [].
Proof. eexists. repeat split. Qed.
Print Assumptions C38_remove_first_of_empty_refuted.
