(** What reading through a stack of sources is supposed to deliver. *)
From Verif Require Import Base Utf8 LexerModel LexerSpec RootModel.

(** The sources still being read, the one that is next first. *)
Definition live (r : root) : list nat := match next_idx r with Some n => [n] | None => [] end ++ idx r :: stack r.
Definition source_rest (r : root) (i : nat) : bytes :=
  match nth_error (sources r) i with Some s => rest (s_lex s) | None => [] end.
(** The text still to be read: temporary buffer, then every live source's remainder. *)
Definition unread (r : root) : bytes :=
  match tmp r with Some (l, _) => rest l | None => [] end ++ concat (map (source_rest r) (live r)).

(** States the parser can bring the lexer into: fresh ones, and those reached by reading tokens, skipping a newline or blank lines,
    pushing a source (at most one between two reads), and inserting text. *)
Inductive reachable (plugins : list bytes) : root -> Prop :=
| R_new s : utf8 s -> reachable plugins (new_root s)
| R_read r k r' : reachable plugins r -> next_tok plugins r = Ret (k, r') -> reachable plugins r'
| R_newline r r' : reachable plugins r -> skip_newline r = Ret r' -> reachable plugins r'
| R_blank r r' : reachable plugins r -> consume_empty_lines r = Ret r' -> reachable plugins r'
| R_push r s d r' : reachable plugins r -> next_idx r = None -> (N.of_nat (length (sources r)) < 65535)%N -> utf8 s ->
    push_source s d r = Ret r' -> reachable plugins r'
| R_insert r s l : reachable plugins r -> s <> [] -> utf8 s -> reachable plugins (set_tmp_buf s l r).

(** A pushed text becomes whole lines. *)
Definition whole_lines (s : bytes) : bytes := if ends_with s [newline] then s else s ++ [newline].

(** The abstract reader: a stack of token streams, each with its source's number. *)
Inductive op := Read | Push (s : bytes) (depth : option nat).
Definition streams := list (nat * list token).
Fixpoint first_token (st : streams) : option (nat * token) * streams :=
  match st with
  | [] => (None, [])
  | (i, []) :: r => match r with [] => (None, [(i, [])]) | _ => first_token r end
  | (i, t :: ts) :: r => (Some (i, t), (i, ts) :: r)
  end.
(** [expected plugins n st ops out]: performing [ops] on streams [st], [n] sources so far, delivers [out]. *)
Inductive expected (plugins : list bytes) : nat -> streams -> list op -> list (option (nat * token)) -> Prop :=
| E_nil n st : expected plugins n st [] []
| E_read n st o st' ops out : first_token st = (o, st') -> expected plugins n st' ops out ->
    expected plugins n st (Read :: ops) (o :: out)
| E_push n st s d ts ops out :
    tokens plugins (S (length (whole_lines s))) (from_bytes (whole_lines s)) = Ret (Some ts) ->
    expected plugins (S n) ((n, ts) :: st) ops out -> expected plugins n st (Push s d :: ops) out.
(** the lexer doing the same *)
Definition delivered (k : rtok) : option (nat * token) :=
  match k_kind k with
  | Eof => None
  | _ => Some (l_src (k_loc k), mkToken (k_kind k) (l_start (k_loc k)) (l_end (k_loc k)) (k_lexeme k))
  end.
Fixpoint perform (plugins : list bytes) (ops : list op) (r : root) : outcome (list (option (nat * token))) :=
  match ops with
  | [] => Ret []
  | Read :: ops' =>
      match next_tok plugins r with
      | Panic => Panic
      | Ret (k, r') => match perform plugins ops' r' with Panic => Panic | Ret out => Ret (delivered k :: out) end
      end
  | Push s d :: ops' => match push_source s d r with Panic => Panic | Ret r' => perform plugins ops' r' end
  end.
(** never two pushes in a row *)
Fixpoint reads_between (ops : list op) : Prop :=
  match ops with
  | Push _ _ :: ((Push _ _ :: _) as r) => False
  | _ :: r => reads_between r
  | [] => True
  end.
Definition pushed_texts (ops : list op) : list bytes :=
  concat (map (fun o => match o with Push s _ => [s] | Read => [] end) ops).

(** How many documents enclose the source being read. *)
Definition nesting (r : root) : nat := length (live r) - 1.
(** The states reached when sources are only pushed by include directives that pass the depth check. *)
Inductive pulled (checked : bool) (limit : nat) (plugins : list bytes) : root -> Prop :=
| P_new s : utf8 s -> pulled checked limit plugins (new_root s)
| P_read r k r' : pulled checked limit plugins r -> next_tok plugins r = Ret (k, r') -> pulled checked limit plugins r'
| P_newline r r' : pulled checked limit plugins r -> skip_newline r = Ret r' -> pulled checked limit plugins r'
| P_blank r r' : pulled checked limit plugins r -> consume_empty_lines r = Ret r' -> pulled checked limit plugins r'
| P_include r s d r' : pulled checked limit plugins r -> next_idx r = None -> (N.of_nat (length (sources r)) < 65535)%N -> utf8 s ->
    try_include checked limit s d r = Ret r' -> pulled checked limit plugins r'
| P_insert r s l : pulled checked limit plugins r -> s <> [] -> utf8 s -> pulled checked limit plugins (set_tmp_buf s l r).

(** The files a world answers with are valid UTF-8. *)
Definition utf8_world (w : world) : Prop := forall seen s d, rp_include (w seen) = Some (s, d) -> utf8 s.

(** A play: lines read and include directives met, in order. *)
Inductive act := ALine | AInclude (s : bytes) (depth : option nat).
Fixpoint play (checked : bool) (limit : nat) (acts : list act) (r : root) : outcome root :=
  match acts with
  | [] => Ret r
  | ALine :: t => match read_line [] r with Ret (_, r') => play checked limit t r' | Panic => Panic end
  | AInclude s d :: t => match try_include checked limit s d r with Ret r' => play checked limit t r' | Panic => Panic end
  end.
