(** Model of a line of tokens: parser/src/line.rs and parser/src/token.rs. A token is its kind and its text, and what only the inline parser looks at (InlineModel.v):
    where it starts, the byte before it, the mark on tokens that came from an attribute, and for the token that stands for a passthrough, which one. *)
From Coq Require Export Bool Lia.
From Verif Require Export Base LexerModel.

(** token.rs:7-12 (loc, attr_replacement), lexer/source_lexer.rs:211-217 (byte_before), tasks/parse_inlines/inline_preproc.rs:76-77 (the number in the text of the token) *)
Record info := Info { repl : bool; at_ : nat; before : option ascii; slot : nat }.
Definition plain : info := Info false 0 None 0.
Record tok := TokI { tk : kind; tx : bytes; inf : info }.
(** a token of which nothing else is said *)
Notation Tok k x := (TokI k x plain).
Scheme Equality for kind.
(** parser/src/token.rs TokenKind: PartialEq *)
Definition kind_eqb (a b : kind) : bool := kind_beq a b.
Lemma kind_eqb_spec a b : reflect (a = b) (kind_eqb a b).
Proof. apply iff_reflect. split; [apply internal_kind_dec_lb|apply internal_kind_dec_bl]. Qed.

(** token.rs:239-242 (of a token) and 303-305 (of a token that may not be there) *)
Definition is_k (k : kind) (t : tok) : bool := kind_eqb (tk t) k.
Definition at_k (k : kind) (o : option tok) : bool := match o with Some t => is_k k t | None => false end.
Definition one_of (ks : list kind) (t : tok) : bool := existsb (kind_eqb (tk t)) ks.
(** token.rs:235-237 *)
Definition len_is (n : nat) (t : tok) : bool := length (tx t) =? n.

(** token.rs:70-77, 248-256 *)
Inductive tspec := Kind (k : kind) | Len (n : nat) (k : kind) | Not (k : kind) | OneOf (ks : list kind) | NotOneOf (ks : list kind).
Definition satisfies (s : tspec) (t : tok) : bool :=
  match s with
  | Kind k => is_k k t
  | Not k => negb (is_k k t)
  | Len n k => is_k k t && len_is n t
  | OneOf ks => one_of ks t
  | NotOneOf ks => negb (one_of ks t)
  end.

(** line.rs:222-224, 202-204: the current token is the first, the next is the one after it *)
Definition current_is (k : kind) (l : list tok) : bool := at_k k (hd_error l).
Definition peek (l : list tok) : option tok := hd_error (tl l).
(** line.rs:206-212 *)
Definition last_token (l : list tok) : option tok := hd_error (rev l).

(** line.rs:380-391, 417-419: the specifications hold of the first tokens, one by one *)
Fixpoint starts_with_seq (specs : list tspec) (l : list tok) : bool :=
  match specs, l with
  | [], _ => true
  | s :: r, t :: l => satisfies s t && starts_with_seq r l
  | _ :: _, [] => false
  end.
(** line.rs:429-455, from 0: the first place where they hold *)
Fixpoint index_of_seq (specs : list tspec) (l : list tok) : option nat :=
  match l with
  | [] => None
  | _ :: r => if starts_with_seq specs l then Some 0 else option_map S (index_of_seq specs r)
  end.
(** line.rs:421-423 *)
Definition contains_seq (specs : list tspec) (l : list tok) : bool := match index_of_seq specs l with Some _ => true | None => false end.
(** line.rs:425-427 *)
Definition index_of_kind (k : kind) (l : list tok) : option nat := index_of_seq [Kind k] l.
(** line.rs:369-378: the first token of the kind that no backslash precedes *)
Fixpoint first_nonescaped_from (prev : option tok) (k : kind) (l : list tok) : option nat :=
  match l with
  | [] => None
  | t :: r => if is_k k t && negb (at_k Backslash prev) then Some 0 else option_map S (first_nonescaped_from (Some t) k r)
  end.
Definition first_nonescaped (k : kind) (l : list tok) : option nat := first_nonescaped_from None k l.
(** line.rs:345-351 *)
Definition ends_with_nonescaped (k : kind) (l : list tok) : bool :=
  match rev l with
  | [] => false
  | [t] => is_k k t
  | t :: p :: _ => is_k k t && negb (is_k Backslash p)
  end.
(** line.rs:607-626: the text of the tokens before the first that satisfies one of the specifications, and the rest. [Panic]: no tokens. *)
Fixpoint until_one_of (specs : list tspec) (l : list tok) : bytes * list tok :=
  match l with
  | [] => ([], [])
  | t :: r => if existsb (fun s => satisfies s t) specs then ([], l) else let (x, m) := until_one_of specs r in (tx t ++ x, m)
  end.
Definition consume_to_string_until_one_of (specs : list tspec) (l : list tok) : outcome (bytes * list tok) := match l with [] => Panic | _ => Ret (until_one_of specs l) end.
(** the text of tokens (line.rs:629-637) *)
Definition text_of (l : list tok) : bytes := flat_map tx l.

(** The tokens of a text, for examples: the whole text as one source. *)
Definition lex (s : string) : list tok :=
  match tokens [] (S (S (String.length s))) (from_bytes (list_ascii_of_string s)) with
  | Ret (Some ts) => map (fun t => Tok (t_kind t) (t_lexeme t)) ts
  | _ => []
  end.
