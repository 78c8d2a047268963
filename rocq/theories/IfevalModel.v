(** Model of the ifeval directive: parser/src/tasks/directives/ifeval.rs. *)
From Verif Require Import Base Text Utf8 LexerModel AttrsModel IfdefModel AttrRefsModel.
From Coq Require Import ZArith.

(** 32-bit floating point numbers, a parameter of every theorem: [fparse] is str::parse::<f32>, [fcmp] is f32::partial_cmp
    ([None] when one of them is not a number). Rust's comparison operators on f32 are those of partial_cmp. *)
Record floats := mkFloats { fl : Type; fparse : bytes -> option fl; fcmp : fl -> fl -> option comparison }.

(** ifeval.rs:115-122 *)
Inductive value (F : floats) := VInt (n : Z) | VFloat (x : fl F) | VStr (s : bytes) | VBool (v : bool) | VNil.
Arguments VInt {F}. Arguments VFloat {F}. Arguments VStr {F}. Arguments VBool {F}. Arguments VNil {F}.
(** ifeval.rs:124-132 *)
Inductive op := OEq | ONotEq | OLess | OLessEq | OGreater | OGreaterEq.

(** str::parse::<isize> (64 bit): an optional sign and digits, [None] also when out of range *)
Definition isize_bound : N := 9223372036854775808.
Definition parse_isize (s : bytes) : option Z :=
  match s with
  | [] => None
  | c :: r =>
      let digits_in bound ds := match ds with [] => None | _ => match digits_value 0 ds with Some n => if (n <? bound)%N then Some n else None | None => None end end in
      if Ascii.eqb c "-"%char then option_map (fun n => Z.opp (Z.of_N n)) (digits_in (isize_bound + 1)%N r)
      else option_map Z.of_N (digits_in isize_bound (if Ascii.eqb c "+"%char then r else s))
  end.
(** byte order of texts: str's Ord *)
Fixpoint bytes_compare (x y : bytes) : comparison :=
  match x, y with
  | [], [] => Eq
  | [], _ :: _ => Lt
  | _ :: _, [] => Gt
  | a :: x', c :: y' => match (N_of_ascii a ?= N_of_ascii c)%N with Eq => bytes_compare x' y' | r => r end
  end.

(** ifeval.rs:48-73 behind the substitution. [Panic]: the slice of line 67, for an operand that is one quotation mark. *)
Definition coerce_text (F : floats) (s : bytes) : outcome (value F) :=
  if bytes_eqb s ($"true") then Ret (VBool true)
  else if bytes_eqb s ($"false") then Ret (VBool false)
  else match s with
  | [] => Ret VNil
  | _ =>
    match parse_isize s with
    | Some n => Ret (VInt n)
    | None =>
      match fparse F s with
      | Some x => Ret (VFloat x)
      | None =>
          let quoted q := starts_with [q] s && ends_with s [q] in
          if quoted "'"%char || quoted (ch 34) then
            if length s <? 2 then Panic else Ret (VStr (firstn (length s - 2) (skipn 1 s)))
          else if forallb ascii_ws s then Ret (VStr ($" "))
          else Ret (VInt 0%Z)
      end
    end
  end.
(** ifeval.rs:48-49 *)
Definition coerce (F : floats) (get : lookup) (s : bytes) : outcome (value F) := coerce_text F (replace_attr_vals get s).

(** what an operator makes of an ordering (std::cmp::PartialOrd) *)
Definition op_holds (o : op) (c : option comparison) : bool :=
  match o, c with
  | OEq, Some Eq | OLess, Some Lt | OLessEq, Some Lt | OLessEq, Some Eq | OGreater, Some Gt | OGreaterEq, Some Gt | OGreaterEq, Some Eq => true
  | ONotEq, Some Eq => false
  | ONotEq, _ => true
  | _, _ => false
  end.
(** ifeval.rs:76-112 *)
Definition eval {F : floats} (l : value F) (o : op) (r : value F) : bool :=
  match l, o, r with
  | VStr x, _, VStr y => op_holds o (Some (bytes_compare x y))
  | VInt x, _, VInt y => op_holds o (Some (x ?= y)%Z)
  | VFloat x, _, VFloat y => op_holds o (fcmp F x y)
  | VBool x, OEq, VBool y => Bool.eqb x y
  | VBool x, ONotEq, VBool y => negb (Bool.eqb x y)
  | VNil, OEq, VNil => true
  | VNil, ONotEq, VNil => false
  | VNil, OEq, _ => false
  | VNil, ONotEq, _ => true
  | _, _, _ => false
  end.

(** ** core/src/regx.rs:37-38 DIRECTIVE_IFEVAL, with the regex engine's leftmost-first choices *)
Fixpoint skip_spaces (s : bytes) : bytes := match s with c :: r => if Ascii.eqb c " "%char then skip_spaces r else s | [] => [] end.
(** behind the operator: the spaces are skipped greedily, but one is given back if nothing else is left *)
Definition rhs_of (s : bytes) : option bytes :=
  match skip_spaces s, s with [], [] => None | [], _ => Some ($" ") | r, _ => Some r end.
(** the operator at the front: two characters are tried before one *)
Definition op_of (s : bytes) : option op :=
  if bytes_eqb s ($"==") then Some OEq else if bytes_eqb s ($"!=") then Some ONotEq else if bytes_eqb s ($"<") then Some OLess
  else if bytes_eqb s ($"<=") then Some OLessEq else if bytes_eqb s ($">") then Some OGreater else if bytes_eqb s ($">=") then Some OGreaterEq else None.
Definition op_rhs (n : nat) (s : bytes) : option (op * bytes) :=
  match op_of (firstn n s), rhs_of (skipn n s) with Some o, Some r => if n <=? length s then Some (o, r) else None | _, _ => None end.
Definition op_front (s : bytes) : option (op * bytes) := match op_rhs 2 s with Some x => Some x | None => op_rhs 1 s end.
(** The shortest left operand ([pre] reversed) behind which an operator stands. *)
Fixpoint split_op (pre s : bytes) : option (bytes * op * bytes) :=
  match s with
  | [] => None
  | c :: r =>
      match op_front (skip_spaces r) with
      | Some (o, rhs) => Some (rev (c :: pre), o, rhs)
      | None => split_op (c :: pre) r
      end
  end.
(** [s] is the line behind the directive word. The target is matched lazily, so it ends at the first bracket: if a later one
    matched, so would the first, its left operand reaching over the others. *)
Definition ifeval_parts (s : bytes) : option (bytes * (bytes * op * bytes)) :=
  match split_once ($"[") s with
  | None => None
  | Some (target, r) =>
      if ends_with r ($"]") then match split_op [] (firstn (length r - 1) r) with Some x => Some (target, x) | None => None end else None
  end.

(** ifeval.rs:5-46: [Passed]: the line is kept as text, with the report made, if any *)
Inductive ifeval_report := InvalidExpression | MayNotIncludeTarget.
Inductive verdict := Passed (r : option ifeval_report) | Decided (v : bool).
Definition ifeval (F : floats) (get : lookup) (line : bytes) : outcome verdict :=
  let s := skipn 8 line in
  match ifeval_parts s with
  | None => Ret (Passed (if starts_with ($"[") s && ends_with s ($"]") && (2 <=? length s) then Some InvalidExpression else None))
  | Some (_ :: _, _) => Ret (Passed (Some MayNotIncludeTarget))
  | Some ([], (l, o, r)) =>
      match coerce F get l, coerce F get r with
      | Ret x, Ret y => Ret (Decided (eval x o y))
      | _, _ => Panic
      end
  end.
(** What the line reader (IfdefModel.v) sees of it. *)
Definition ifeval_answer (F : floats) (get : lookup) (line : bytes) : outcome (option bool) :=
  match ifeval F get line with Panic => Panic | Ret (Passed _) => Ret None | Ret (Decided v) => Ret (Some v) end.
