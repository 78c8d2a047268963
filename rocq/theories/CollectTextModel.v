(** Model of the collection of inline text: parser/src/tasks/collect_text.rs, parser/src/tasks/parse_inlines/inline_utils.rs:86-188, 230-247,
    parser/src/tasks/parse_inlines/mod.rs:1023-1044.
    A text is a sequence of characters (code points); positions and lengths are in bytes of UTF-8, as in the code. The include depth of a location is left out
    (pieces at another depth are committed first, mod.rs:78-81, as [Commit] does). *)
From Verif Require Import Base Text Unicode.

Definition text := list N.
(** str::len *)
Definition blen (t : text) : nat := length (utf8_text t).
(** char::is_whitespace *)
Definition is_white (c : N) : bool := existsb (bytes_eqb (utf8_enc c)) white.
Definition space : N := 32%N.

(** ast/src/source_location.rs:3-8 *)
Record loc := Loc { start : nat; fin : nat }.
(** source_location.rs:27-30 *)
Definition extend (l o : loc) : loc := Loc (Nat.min (start l) (start o)) (Nat.max (fin l) (fin o)).
(** source_location.rs:49-52 *)
Definition clamp_end (l : loc) : loc := Loc (fin l) (fin l).

(** ast/src/inline.rs:74-78 and the inline nodes, as far as they matter here *)
Inductive adjacent := NoNewline | Leading | Trailing.
(** [Symbol n]: SymbolKind::EmDash for two dashes, TripleDash for three; [Other n]: any other node, known by a number *)
Inductive content := Text (t : text) | Newline | Symbol (n : nat) | SpacedDashes (n : nat) (a : adjacent) | CalloutTuck (t : text) | Other (n : nat).
Definition node : Type := content * loc.

(** Accum and its CollectText: the nodes, the text that is pending and its location *)
Record accum := Accum { inlines : list node; pending : text; at_ : loc }.

(** collect_text.rs:26-29 *)
Definition push_token (lexeme : text) (l : loc) (a : accum) : accum := Accum (inlines a) (pending a ++ lexeme) (extend (at_ a) l).
(** collect_text.rs:31-34 *)
Definition push_str (s : text) (a : accum) : accum := Accum (inlines a) (pending a ++ s) (Loc (start (at_ a)) (fin (at_ a) + blen s)).

(** the last node, if it is text *)
Fixpoint last_text (l : list node) : option (list node * text * loc) :=
  match l with
  | [] => None
  | [(Text t, lc)] => Some ([], t, lc)
  | [_] => None
  | x :: r => match last_text r with Some (f, t, lc) => Some (x :: f, t, lc) | None => None end
  end.
(** collect_text.rs:79-94, inline_utils.rs:99-101 *)
Definition commit (a : accum) : accum :=
  match pending a with
  | [] => a
  | _ =>
      let taken := clamp_end (at_ a) in
      match last_text (inlines a) with
      | Some (front, t, lc) => Accum (front ++ [(Text (t ++ pending a), extend lc taken)]) [] taken
      | None => Accum (inlines a ++ [(Text (pending a), at_ a)]) [] (clamp_end taken)
      end
  end.
(** inline_utils.rs:103-107 *)
Definition push_node (c : content) (l : loc) (a : accum) : accum := Accum (inlines (commit a) ++ [(c, l)]) [] (clamp_end l).
(** inline_utils.rs:177-187 *)
Definition push_text_token (lexeme : text) (l : loc) (a : accum) : accum :=
  if Nat.eqb (fin (at_ a)) (start l) then push_token lexeme l a
  else let a' := push_token lexeme l (commit a) in Accum (inlines a') (pending a') l.

(** str::trim_end *)
Fixpoint drop_white (t : text) : text := match t with c :: r => if is_white c then drop_white r else t | [] => [] end.
Definition trimmed_end (t : text) : text := rev (drop_white (rev t)).
(** String::pop, [n] times *)
Definition pops (n : nat) (t : text) : text := firstn (length t - n) t.
Definition ends_with (t s : text) : bool := starts_with (rev (utf8_text s)) (rev (utf8_text t)).
(** collect_text.rs:40-52; u32 arithmetic that goes below zero panics (in a debug build) *)
Definition trim_end (a : accum) : outcome accum :=
  if negb (ends_with (pending a) [space]) then Ret a
  else
    let delta := blen (pending a) - blen (trimmed_end (pending a)) in
    if fin (at_ a) <? delta then Panic
    else Ret (Accum (inlines a) (pops delta (pending a)) (Loc (start (at_ a)) (fin (at_ a) - delta))).
(** collect_text.rs:54-61 *)
Definition drop_last (n : nat) (a : accum) : outcome accum :=
  if blen (pending a) <? n then Panic
  else if fin (at_ a) <? n then Panic
  else Ret (Accum (inlines a) (pops n (pending a)) (Loc (start (at_ a)) (fin (at_ a) - n))).

(** str::split_at(len - back), the second half, for a text whose last [back] bytes are whole characters *)
Fixpoint last_bytes (back : nat) (t : text) : text := if blen t <=? back then t else match t with _ :: r => last_bytes back r | [] => [] end.
(** mod.rs:1024-1044; [comment] is the custom line comment *)
Definition recover_custom_line_comment (comment : text) (a : accum) : outcome accum :=
  let spaced := ends_with (pending a) [space] in
  let line_txt := if spaced then pops 1 (pending a) else pending a in
  let back := if spaced then blen comment + 1 else blen comment in
  if ends_with line_txt comment then
    let tuck := last_bytes back (pending a) in
    match drop_last back a with
    | Panic => Panic
    | Ret a' => Ret (push_node (CalloutTuck tuck) (Loc (fin (at_ a')) (fin (at_ a') + back)) a')
    end
  else Ret a.

(** inline_utils.rs:148-163, when lines follow *)
Definition join_newline (a : accum) : accum :=
  let a := commit a in
  let a := Accum (inlines a) (pending a) (Loc (start (at_ a)) (fin (at_ a) + 1)) in
  match rev (inlines a) with
  | (SpacedDashes _ NoNewline, l) :: r => Accum (rev r ++ [(SpacedDashes 2 Trailing, Loc (start l) (fin l + 1))]) (pending a) (at_ a)
  | _ => push_node Newline (at_ a) a
  end.

(** inline_utils.rs:109-142: a run of [n] dashes at [l]; [next] is the first character of the token after it on the line. [word] is is_word_char (249-251), a parameter:
    it asks the Unicode tables. That the space after the dashes is dropped from the next token is the caller's next [Tok]. *)
Definition dash : N := 45%N.
Definition push_emdash (word : N -> bool) (n : nat) (l : loc) (next : option N) (a : accum) : outcome accum :=
  let text_token := Ret (push_text_token (repeat dash n) l a) in
  let spaced (a : accum) (nl : adjacent) (l : loc) := Ret (push_node (SpacedDashes n nl) (Loc (start l) (fin l + 1)) a) in
  let gap c := match c with None => true | Some c => N.eqb c space end in
  let last_char := last (map Some (pending a)) None in
  match last_char, next with
  | None, None => text_token
  | _, _ =>
      if match last_char, next with Some c, Some n => word c && word n | _, _ => false end then Ret (push_node (Symbol n) l a)
      else if gap last_char && gap next then
        match last_char with
        | Some _ =>
            if start l =? 0 then Panic
            else match drop_last 1 a with Ret a' => spaced a' NoNewline (Loc (start l - 1) (fin l)) | Panic => Panic end
        | None =>
            match rev (inlines a) with
            | (Newline, _) :: r => if start l =? 0 then Panic else spaced (Accum (rev r) (pending a) (at_ a)) Leading (Loc (start l - 1) (fin l))
            | _ => spaced a NoNewline l
            end
        end
      else text_token
  end.

(** inline_utils.rs:230-247: the end of a macro at [e]; the text that is pending is not committed *)
Definition finish_macro (e : nat) (a : accum) : accum := Accum (inlines a) (pending a) (Loc e e).

(** what the parser does with the accumulator while it reads *)
Inductive op :=
| Tok (lexeme : text) (l : loc)
| Str (s : text)
| Mark (n : nat) (l : loc)
| Dashes (n : nat) (l : loc) (next : option N)
| Finish (e : nat)
| Commit
| TrimEnd
| Tuck (comment : text)
| Join.
Definition step (word : N -> bool) (o : op) (a : accum) : outcome accum :=
  match o with
  | Tok t l => Ret (push_text_token t l a)
  | Str s => Ret (push_str s a)
  | Mark n l => Ret (push_node (Other n) l a)
  | Dashes n l next => push_emdash word n l next a
  | Finish e => Ret (finish_macro e a)
  | Commit => Ret (commit a)
  | TrimEnd => trim_end a
  | Tuck c => recover_custom_line_comment c a
  | Join => Ret (join_newline a)
  end.
Fixpoint run (word : N -> bool) (os : list op) (a : accum) : outcome accum :=
  match os with [] => Ret a | o :: r => match step word o a with Ret a' => run word r a' | Panic => Panic end end.
(** the nodes that come of it: what is still pending is committed at the end (mod.rs:895-903) *)
Definition collect (word : N -> bool) (os : list op) (l : loc) : outcome (list node) :=
  match run word os (Accum [] [] l) with Ret a => Ret (inlines (commit a)) | Panic => Panic end.
