(** How escaped text is read back, in one pass from left to right. *)
From Verif Require Import Base.

Definition dquote : ascii := "034"%char.
(** the references that stand for characters of the text *)
Definition html_entities : list (bytes * ascii) :=
  [($"&amp;", "&"%char); ($"&lt;", "<"%char); ($"&gt;", ">"%char); ($"&quot;", dquote); ($"&#8217;", "'"%char)].
Definition url_codes : list (bytes * ascii) := [($"%20", " "%char); ($"%2C", ","%char)].
Fixpoint decode (table : list (bytes * ascii)) (fuel : nat) (s : bytes) : bytes :=
  match fuel, s with
  | S n, c :: r =>
      match find (fun e => starts_with (fst e) s) table with
      | Some (e, x) => x :: decode table n (skipn (length e) s)
      | None => c :: decode table n r
      end
  | _, _ => []
  end.
(** one step for each byte is enough *)
Definition unescape (s : bytes) : bytes := decode html_entities (length s) s.
Definition url_decode (s : bytes) : bytes := decode url_codes (length s) s.

(** a byte inside of a UTF-8 encoded character *)
Definition inner_byte (c : ascii) : Prop := (128 <= nat_of_ascii c < 192)%nat.
(** no character begins less than six and ends more than six bytes after the ampersand of an "&#" *)
Definition no_character_cut (s : bytes) : Prop :=
  forall pre rest c, s = pre ++ $"&#" ++ rest -> nth_error rest 4 = Some c -> ~ inner_byte c.
Definition ascii_only (s : bytes) : Prop := Forall (fun c => nat_of_ascii c < 128)%nat s.

Definition is_dec (c : ascii) : Prop := In c ($"0123456789").
Definition is_hex (c : ascii) : Prop := In c ($"0123456789abcdefABCDEF").
(** numeric character references, and the short ones among them *)
Inductive numeric_ref : bytes -> Prop :=
| nr_dec ds : ds <> [] -> Forall is_dec ds -> numeric_ref ($"&#" ++ ds ++ $";")
| nr_hex ds : ds <> [] -> Forall is_hex ds -> numeric_ref ($"&#x" ++ ds ++ $";").
Definition short_ref (r : bytes) : Prop := numeric_ref r /\ (length r <= 6)%nat.
