(** What ifeval comparisons mean, stated on numbers and texts. *)
From Verif Require Import Base Text Utf8 LexerModel LexerSpec AttrsModel IfevalModel.
From Coq Require Import ZArith.

Definition op_text (o : op) : bytes :=
  match o with OEq => $"==" | ONotEq => $"!=" | OLess => $"<" | OLessEq => $"<=" | OGreater => $">" | OGreaterEq => $">=" end.
(** The operators on whole numbers. *)
Definition int_rel (o : op) (x y : Z) : Prop :=
  match o with OEq => x = y | ONotEq => x <> y | OLess => x < y | OLessEq => x <= y | OGreater => x > y | OGreaterEq => x >= y end%Z.
(** Byte order of texts: a text is less than another if it ends first, or has the smaller byte where they first differ. *)
Definition text_less (x y : bytes) : Prop := exists p, (exists c r, x = p /\ y = p ++ c :: r) \/
  (exists c d r r', x = p ++ c :: r /\ y = p ++ d :: r' /\ (val c < val d)%N).
Definition text_rel (o : op) (x y : bytes) : Prop :=
  match o with OEq => x = y | ONotEq => x <> y | OLess => text_less x y | OLessEq => text_less x y \/ x = y
             | OGreater => text_less y x | OGreaterEq => text_less y x \/ x = y end.
(** Floating point numbers by their own ordering. *)
Definition float_rel {F : floats} (o : op) (x y : fl F) : Prop :=
  match o with OEq => fcmp F x y = Some Eq | ONotEq => fcmp F x y <> Some Eq | OLess => fcmp F x y = Some Lt
             | OLessEq => fcmp F x y = Some Lt \/ fcmp F x y = Some Eq | OGreater => fcmp F x y = Some Gt
             | OGreaterEq => fcmp F x y = Some Gt \/ fcmp F x y = Some Eq end.
(** the operator that says the opposite, and the one for exchanged sides *)
Definition opposite (o : op) : op :=
  match o with OEq => ONotEq | ONotEq => OEq | OLess => OGreaterEq | OLessEq => OGreater | OGreater => OLessEq | OGreaterEq => OLess end.
Definition mirrored (o : op) : op :=
  match o with OEq => OEq | ONotEq => ONotEq | OLess => OGreater | OLessEq => OGreaterEq | OGreater => OLess | OGreaterEq => OLessEq end.

Inductive vtype := TInt | TFloat | TStr | TBool | TNil.
Definition type_of {F} (v : value F) : vtype :=
  match v with VInt _ => TInt | VFloat _ => TFloat | VStr _ => TStr | VBool _ => TBool | VNil => TNil end.
(** Values of one type that can be put in order. *)
Definition comparable {F} (x y : value F) : Prop :=
  match x, y with
  | VInt _, VInt _ | VStr _, VStr _ => True
  | VFloat a, VFloat c => fcmp F a c <> None
  | _, _ => False
  end.

(** Which text denotes which value. *)
Definition quote_mark (q : ascii) : Prop := q = "'"%char \/ q = quote.
Definition blank_byte (c : ascii) : Prop := In c ((" "%char) :: map ascii_of_nat [9; 10; 12; 13]).
Definition int_literal (s : bytes) (n : Z) : Prop := exists sign ds,
  s = sign ++ ds /\ ds <> [] /\ Forall Text.digit ds /\
  ((sign = [] \/ sign = $"+") /\ n = Z.of_N (Text.value ds) \/ sign = $"-" /\ n = Z.opp (Z.of_N (Text.value ds))) /\
  (- 9223372036854775808 <= n < 9223372036854775808)%Z.
Inductive literal (F : floats) : bytes -> value F -> Prop :=
| L_true : literal F ($"true") (VBool true)
| L_false : literal F ($"false") (VBool false)
| L_nothing : literal F [] VNil
| L_int s n : int_literal s n -> literal F s (VInt n)
| L_float s x : (forall n, ~ int_literal s n) -> s <> $"true" -> s <> $"false" -> s <> [] -> fparse F s = Some x -> literal F s (VFloat x)
| L_quoted q s : quote_mark q -> literal F (q :: s ++ [q]) (VStr s)
| L_blank s : s <> [] -> Forall blank_byte s -> literal F s (VStr ($" "))
| L_other s : (forall n, ~ int_literal s n) -> s <> $"true" -> s <> $"false" -> s <> [] -> fparse F s = None ->
    (forall q t, quote_mark q -> s <> q :: t ++ [q]) -> (forall q, quote_mark q -> s <> [q]) -> ~ Forall blank_byte s ->
    literal F s (VInt 0).
(** Floating point literals do not begin with quotation marks or white space and are not the words true and false. *)
Definition ordinary_floats (F : floats) : Prop :=
  forall c s, quote_mark c \/ blank_byte c -> fparse F (c :: s) = None.

(** The line of a directive whose operands cannot be misread: no operator character and no space at the end on the left, no
    space, and no equals sign that would belong to the operator, at the beginning on the right. *)
Definition left_operand (l : bytes) : Prop := l <> [] /\ (forall c, In c l -> ~ In c ($"=!<>")) /\ (forall p, l <> p ++ $" ").
Definition right_operand (o : op) (r : bytes) : Prop :=
  r <> [] /\ (forall t, r <> $" " ++ t) /\ (o = OLess \/ o = OGreater -> forall t, r <> $"=" ++ t).
Definition ifeval_line (l : bytes) (before : nat) (o : op) (after : nat) (r : bytes) : bytes :=
  $"ifeval::[" ++ l ++ repeat " "%char before ++ op_text o ++ repeat " "%char after ++ r ++ $"]".
