(** What a command line attribute definition should mean, said apart from the model's functions. *)
From Verif Require Import Base Text AttrRefsSpec CliArgsModel.

Definition word (c : ascii) : Prop := In c ($"abcdefghijklmnopqrstuvwxyzABCDEFGHIJKLMNOPQRSTUVWXYZ0123456789_").
(** letters, digits and underscores, and behind the first one also hyphens *)
Definition valid_name (n : bytes) : Prop := exists c r, n = c :: r /\ word c /\ Forall (fun d => word d \/ d = "-"%char) r.
(** the marks around a name: [!] for unset, [@] for what the document may change *)
Definition marks (bang at_ : bool) : bytes := (if bang then $"!" else []) ++ (if at_ then $"@" else []).
Definition one_line (v : bytes) : Prop := v <> [] /\ ~ In (ascii_of_N 10) v.
(** [v] without the [@]s at its end *)
Definition without_ats (v w : bytes) : Prop := exists n, v = w ++ repeat "@"%char n /\ forall w', w <> w' ++ $"@".
(** A definition: marks, name, marks, and a value if there is one. *)
Definition definition_text (b1 a1 : bool) (n : bytes) (b2 a2 : bool) (v : option bytes) : bytes :=
  marks b1 a1 ++ n ++ marks b2 a2 ++ match v with Some v => $"=" ++ v | None => [] end.
(** What it means. *)
Inductive means (b a : bool) : option bytes -> result job_attr arg_error -> Prop :=
| M_flag : means b a None (Ok (JobAttr (negb a) (SetBool (negb b))))
| M_both v : b = true -> means b a (Some v) (Err UnsetWithValue)
| M_soft v : b = false -> a = true -> means b a (Some v) (Ok (JobAttr false (SetStr v)))
| M_suffix v w : b = false -> a = false -> w <> v -> without_ats v w -> means b a (Some v) (Ok (JobAttr false (SetStr w)))
| M_value v : b = false -> a = false -> without_ats v v -> means b a (Some v) (Ok (JobAttr true (SetStr v))).
Definition with_key (k : bytes) (r : result job_attr arg_error) : result (bytes * job_attr) arg_error :=
  match r with Ok a => Ok (k, a) | Err e => Err e end.
