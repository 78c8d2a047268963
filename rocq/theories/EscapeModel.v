(** Model of text written into HTML: backend/src/html/htmlbuf.rs:12-42, 150-187.
    A text is its UTF-8 bytes. The code walks over characters; the ones that are compared or replaced are single bytes and the bytes of the others are
    copied one after the other, so walking over bytes is the same. *)
From Verif Require Import Base.

Definition dquote : ascii := "034"%char.
Definition squote : ascii := "'"%char.
(** a UTF-8 continuation byte: a position before it is not a character boundary *)
Definition continuation (c : ascii) : bool := ((128 <=? nat_of_ascii c) && (nat_of_ascii c <? 192))%nat.

(** the classes of NUMERIC_CHAR_REF, htmlbuf.rs:186 *)
Definition dec_digit (c : ascii) : bool := ((48 <=? nat_of_ascii c) && (nat_of_ascii c <=? 57))%nat.
Definition hex_digit (c : ascii) : bool := (dec_digit c || ((97 <=? nat_of_ascii c) && (nat_of_ascii c <=? 102)) || ((65 <=? nat_of_ascii c) && (nat_of_ascii c <=? 70)))%nat.
(** [class]+; *)
Fixpoint run_semi (class : ascii -> bool) (seen : bool) (s : bytes) : bool :=
  match s with
  | c :: r => if class c then run_semi class true r else seen && Ascii.eqb c ";"%char
  | [] => false
  end.
(** &#[0-9]+;|&#x[0-9a-fA-F]+; at the start of [s] (the classes do not contain the semicolon, so taking them greedily loses no match) *)
Definition ref_here (s : bytes) : bool :=
  if starts_with ($"&#") s then run_semi dec_digit false (skipn 2 s) || (starts_with ($"&#x") s && run_semi hex_digit false (skipn 3 s)) else false.
(** Regex::is_match: anywhere in [s] *)
Fixpoint is_match (s : bytes) : bool := ref_here s || match s with _ :: r => is_match r | [] => false end.

(** htmlbuf.rs:156: src.get(pos..src.len().min(pos + 6)) for the text [s] from [pos] on; None if the end is within a character *)
Definition peek6 (s : bytes) : option bytes :=
  match nth_error s 6 with Some c => if continuation c then None else Some (firstn 6 s) | None => Some s end.
(** htmlbuf.rs:154-170: what is written for [c] when [r] follows *)
Definition escape_char (quotes : bool) (c : ascii) (r : bytes) : bytes :=
  if Ascii.eqb c "&"%char then
    if starts_with ($"#") r then match peek6 (c :: r) with Some peek => if is_match peek then [c] else $"&amp;" | None => [] end
    else $"&amp;"
  else if Ascii.eqb c "<"%char then $"&lt;"
  else if Ascii.eqb c ">"%char then $"&gt;"
  else if Ascii.eqb c dquote && quotes then $"&quot;"
  else if Ascii.eqb c squote && quotes then $"&#8217;"
  else [c].
(** htmlbuf.rs:150-173 *)
Fixpoint push_escaped (quotes : bool) (src : bytes) : bytes :=
  match src with c :: r => escape_char quotes c r ++ push_escaped quotes r | [] => [] end.

(** htmlbuf.rs:175-183 *)
Fixpoint push_url_encoded (s : bytes) : bytes :=
  match s with
  | c :: r => (if Ascii.eqb c " "%char then $"%20" else if Ascii.eqb c ","%char then $"%2C" else [c]) ++ push_url_encoded r
  | [] => []
  end.
(** htmlbuf.rs:38-42 *)
Definition html_attr (name value : bytes) : bytes := $" " ++ name ++ $"=" ++ [dquote] ++ push_escaped true value ++ [dquote].
