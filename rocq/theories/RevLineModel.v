(** Model of the revision line: parser/src/tasks/parse_revision_line.rs:6-86, with the regular expressions of AuthorLineModel.v. Texts are sequences of characters. *)
From Verif Require Import Base Text Unicode CollectTextModel AuthorLineModel.

Definition comma : N := 44%N.
Definition colon : N := 58%N.
Definition newline : N := 10%N.
Definition letter_v : N := 118%N.
Definition ascii_digit (c : N) : bool := (48 <=? c)%N && (c <=? 57)%N.
(** [a*?], [a+?] for an [a] that takes at least a character *)
Fixpoint lazy_star_ (n : nat) (a : regex) : regex := fun s => s :: match n with 0 => [] | S n => flat_map (lazy_star_ n a) (a s) end.
Definition lazy_plus (a : regex) : regex := seq a (fun s => lazy_star_ (length (rest s)) a s).
(** [$] *)
Definition at_end : regex := fun s => match rest s with [] => [s] | _ => [] end.

(** 13: ^([^\s,:]+)(?:,\s*([^:]+?))?(?::\s*(.+))?$ *)
Definition revision_re : regex :=
  seq (group 1 (plus (one (not_in [comma; colon] true))))
 (seq (maybe (seq (one (is comma)) (seq (star (one is_white)) (group 2 (lazy_plus (one (not_in [colon] false)))))))
 (seq (maybe (seq (one (is colon)) (seq (star (one is_white)) (group 3 (plus (one (not_in [newline] false)))))))
      at_end)).
(** 34: ^v(\d[^\s]+)$; [digit] is the class [\d], which asks the Unicode tables and so is a parameter *)
Definition lone_re (digit : N -> bool) : regex :=
  seq (one (is letter_v)) (seq (group 1 (seq (one digit) (plus (one (not_in [] true))))) at_end).
(** 22: the first match of \d.*$ in a text without line breaks *)
Fixpoint from_digit (digit : N -> bool) (t : text) : option text := match t with [] => None | c :: r => if digit c then Some t else from_digit digit r end.

Inductive rev_attr := Revnumber | Revdate | Revremark.
(** 7-86. [word]: the line starts with a word or with digits. What is set, or [None] if the line is not taken. The attributes are set with unwrap (RevLineProps.v: that never fails). *)
Definition parse_revision_line (digit : N -> bool) (word : bool) (line : text) : outcome (option (list (rev_attr * text))) :=
  if word then
    match revision_re (RS None line []) with
    | [] => Ret None
    | e :: _ =>
        let raw := match cap 1 (caps e) with Some t => t | None => [] end in
        if existsb ascii_digit raw then
          match from_digit digit raw with
          | None => Panic
          | Some version =>
              match cap 2 (caps e), cap 3 (caps e) with
              | None, None => Ret (Some (match lone_re digit (RS None raw []) with [] => [] | _ => [(Revnumber, version)] end))
              | None, Some r => Ret (Some [(Revnumber, version); (Revremark, r)])
              | Some d, None => Ret (Some [(Revnumber, version); (Revdate, d)])
              | Some d, Some r => Ret (Some [(Revnumber, version); (Revdate, d); (Revremark, r)])
              end
          end
        else Ret None
    end
  else Ret None.
