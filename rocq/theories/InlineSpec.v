(** Texts as lines of tokens, for statements about the inline parser and for examples. *)
From Verif Require Import InlineModel.

(** A line as it is read, token by token. *)
Definition line_of (ts : list tok) : iline := fold_left push_tok ts (new_line []).
(** The text of lines, with a line feed between them. *)
Fixpoint joined (ls : list bytes) : bytes := match ls with [] => [] | [x] => x | x :: r => x ++ LF :: joined r end.

(** The lines of a paragraph: its tokens with their places, cut at the ends of lines. (An address with an at sign is a word here.) *)
Fixpoint cut_lines (cur l : list tok) : list (list tok) :=
  match l with
  | [] => [cur]
  | t :: r => if is_k Newline t then cur :: cut_lines [] r else if is_k Eof t then cut_lines cur r else cut_lines (cur ++ [t]) r
  end.
Definition placed (b : bytes) (t : LexerModel.token) : tok :=
  TokI (match t_kind t with MaybeEmail => Word | k => k end) (t_lexeme t) (Info false (t_start t) (match t_start t with O => None | S n => nth_error b n end) 0).
Definition para (x : string) : list (list tok) :=
  let b := list_ascii_of_string x in
  match tokens [] (S (S (length b))) (from_bytes b) with Ret (Some ts) => cut_lines [] (map (placed b) ts) | _ => [] end.
Definition word_char (c : ascii) : bool := let n := nat_of_ascii c in (48 <=? n) && (n <=? 57) || (65 <=? n) && (n <=? 90) || (97 <=? n) && (n <=? 122) || (n =? 95).
(** A paragraph outside of lists, tables and delimited blocks, in a debug build or not, where characters are ASCII. *)
Definition ascii_env (debug : bool) : env :=
  Env debug (fun _ => false) (fun _ => false) false false None (fun x => match rev x with c :: _ => word_char c | [] => false end) (fun x => match x with c :: _ => word_char c | [] => false end)
      (fun x => match rev x with c :: _ => negb (word_char c) || Ascii.eqb c "_"%char | [] => false end).
Definition start (sb : subs) : st := St sb CNone None [] [].
Definition parse_text (debug : bool) (sb : subs) (x : string) : ires := parse_inlines_until 300 (ascii_env debug) [] (start sb) (map line_of (para x)).
Definition nodes (r : ires) : option (list inode) := match r with Done _ ns _ => Some ns | _ => None end.
