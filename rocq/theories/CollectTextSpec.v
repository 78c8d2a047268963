(** What it means that the collection of text loses nothing: no word of how it works. *)
From Verif Require Import Base Text Unicode CollectTextModel.

(** What a reader is shown: characters, and the nodes that are not text. *)
Inductive shown := Char (c : N) | Thing (n : nat).
Definition chars (t : text) : list shown := map Char t.
Definition dashes (n : nat) : list shown := repeat (Char dash) n.

(** all that was handed to the collector, in order *)
Definition given (o : op) : list shown :=
  match o with
  | Tok t _ => chars t
  | Str t => chars t
  | Mark n _ => [Thing n]
  | Dashes n _ _ => dashes n
  | Join => [Char 10%N]
  | Finish _ | Commit | TrimEnd | Tuck _ => []
  end.
(** all that the nodes hold, in order *)
Definition held (n : node) : list shown :=
  match fst n with
  | Text t => chars t
  | Newline => [Char 10%N]
  | Symbol n => dashes n
  | SpacedDashes n _ => dashes n
  | CalloutTuck t => chars t
  | Other n => [Thing n]
  end.
(** what of it is not white space *)
Definition inked (s : shown) : bool := match s with Char c => negb (is_white c) | Thing _ => true end.
Definition ink (s : list shown) : list shown := filter inked s.

(** Text nodes are not empty, and no two are neighbours. *)
Definition is_text (n : node) : bool := match fst n with Text _ => true | _ => false end.
Definition no_empty_text (l : list node) : Prop := forall n, In n l -> fst n <> Text [].
Definition no_neighbours (l : list node) : Prop := forall f x y r, l = f ++ x :: y :: r -> is_text x && is_text y = false.

(** No run of dashes, and nothing given back before a callout number. *)
Definition plain_op (o : op) : Prop := match o with Dashes _ _ _ | TrimEnd => False | _ => True end.

(** Whether one byte is one character. *)
Definition one_byte (c : N) : Prop := (c < 128)%N.
(** The text handed over before a callout number has only one byte white space, and the line comment is of one byte characters. *)
Definition narrow_white (os : list op) : Prop :=
  In TrimEnd os -> forall o c, In o os -> In (Char c) (given o) -> is_white c = true -> one_byte c.
Definition narrow_comments (os : list op) : Prop := forall c, In (Tuck c) os -> Forall one_byte c.
(** Every run of dashes is of two, or the text is a single line. *)
Definition two_dashes (os : list op) : Prop := (forall n l x, In (Dashes n l x) os -> n = 2) \/ ~ In Join os.

(** A token ends where its text ends. *)
Definition located (o : op) : Prop :=
  match o with
  | Tok t l => fin l = start l + blen t
  | Dashes n l _ => fin l = start l + n
  | _ => True
  end.
(** A run of dashes is at the start of the file only if it comes first. *)
Definition dashes_placed (os : list op) : Prop := forall f n l x r, os = f ++ Dashes n l x :: r -> f = [] \/ 0 < start l.
(** A macro does not end before its text has been committed. *)
Definition finish_committed (os : list op) : Prop := forall f e r, os = f ++ Finish e :: r -> exists g, f = g ++ [Commit].

(** The bytes of a source between two positions. *)
Definition slice (src : bytes) (l : loc) : bytes := firstn (fin l - start l) (skipn (start l) src).
(** Reading [src] from position [p]. [after_text]: what was read last is text, so the next token follows it without a gap. A position of [None] says that
    white space has just been given back, so what comes is not text. *)
Inductive reads (src : bytes) : option nat -> bool -> list op -> Prop :=
| R_end p t : reads src p t []
| R_tok p t x l os : start l = p -> fin l = p + blen x -> slice src l = utf8_text x -> reads src (Some (fin l)) true os -> reads src (Some p) t (Tok x l :: os)
| R_jump p x l os : fin l = start l + blen x -> slice src l = utf8_text x -> reads src (Some (fin l)) true os -> reads src (Some p) false (Tok x l :: os)
| R_mark p t n l os : reads src (Some (fin l)) false os -> reads src p t (Mark n l :: os)
| R_commit p t os : reads src p t os -> reads src p t (Commit :: os)
| R_finish p t e n l os : reads src (Some (fin l)) false os -> reads src p t (Commit :: Finish e :: Mark n l :: os)
| R_trim p t os : reads src None true os -> reads src p t (TrimEnd :: os)
| R_tuck p t c os : reads src None true os -> reads src p t (Tuck c :: os)
| R_join p t os : reads src (Some (p + 1)) false os -> reads src (Some p) t (Join :: os).
(** Every text has the location that it came from. *)
Definition text_located (src : bytes) (n : node) : Prop :=
  match fst n with
  | Text t => slice src (snd n) = utf8_text t
  | CalloutTuck t => slice src (snd n) = utf8_text t
  | _ => True
  end.
