(** Documents with properly nested conditionals, and the lines they are supposed to keep. *)
From Verif Require Import Base Text Utf8 LexerModel RootModel LexerSpec AttrsModel IfdefModel.

(** A conditional asks whether one of its names ([any]) or all of them are set; [neg] is ifndef. [long]: the closing line repeats
    the expression. *)
Inductive item := Line (l : bytes) | Cond (neg any long : bool) (names : list bytes) (body : list item).

Definition expression (any : bool) (names : list bytes) : bytes := join_byte (if any then ","%char else "+"%char) names.
Definition opening (neg any : bool) (names : list bytes) : bytes :=
  (if neg then $"ifndef::" else $"ifdef::") ++ expression any names ++ $"[]".
Definition closing (any long : bool) (names : list bytes) : bytes :=
  $"endif::" ++ (if long then expression any names else []) ++ $"[]".
(** the lines a document is written with *)
Fixpoint lines_of (i : item) : list bytes :=
  match i with
  | Line l => [l]
  | Cond neg any long names body => opening neg any names :: flat_map lines_of body ++ [closing any long names]
  end.
Definition written (is : list item) : bytes := flat_map (fun l => l ++ [newline]) (flat_map lines_of is).

Definition set {A} (E : env A) (a : A) (n : bytes) : Prop := exists v, get E a n = Some v /\ v <> ABool false.
Definition holds {A} (E : env A) (a : A) (neg any : bool) (names : list bytes) : Prop :=
  let cond := if any then exists n, In n names /\ set E a n else forall n, In n names -> set E a n in
  if neg then ~ cond else cond.
(** [kept E a is out a']: reading [is] with the attributes [a] keeps the lines [out], those whose enclosing conditions hold when
    they are reached, and ends with the attributes [a']. *)
Inductive kept {A} (E : env A) : A -> list item -> list bytes -> A -> Prop :=
| K_end a : kept E a [] [] a
| K_line a l rest out a' : kept E (upd E a l) rest out a' -> kept E a (Line l :: rest) (l :: out) a'
| K_on a neg any long names body rest out1 a1 out2 a2 : holds E a neg any names ->
    kept E a body out1 a1 -> kept E a1 rest out2 a2 ->
    kept E a (Cond neg any long names body :: rest) (out1 ++ out2) a2
| K_off a neg any long names body rest out a' : ~ holds E a neg any names ->
    kept E a rest out a' -> kept E a (Cond neg any long names body :: rest) out a'.

Definition inside (x s : bytes) : Prop := exists p q, s = p ++ x ++ q.
(** A line that is not about conditionals. *)
Definition ordinary (l : bytes) : Prop :=
  utf8 l /\ ~ In newline l /\ ~ In return_ l /\
  (forall w, In w [$"ifdef::"; $"ifndef::"; $"endif::"] -> ~ inside w l) /\
  (forall w, In w [$"ifeval::"; $"asciidorkinclude::"] -> starts_with w l = false).
Definition attribute_name (n : bytes) : Prop := n <> [] /\ Forall (fun c => name_byte c = true) n.
Definition leaf (i : item) : Prop := match i with Line _ => True | Cond _ _ _ _ _ => False end.
(** The documents the property is about. Three restrictions come from the program's shortcomings, each of which is refuted in
    IfdefProps.v without it: an expression has at least two characters, an ifndef with several names has commas between them, and
    a closing line that repeats the expression belongs to a conditional with no conditional inside. *)
Fixpoint proper (i : item) : Prop :=
  match i with
  | Line l => ordinary l
  | Cond neg any long names body =>
      names <> [] /\ Forall attribute_name names /\ 2 <= length (expression any names) /\
      (neg = true -> any = true \/ length names = 1) /\
      (long = true -> Forall leaf body) /\
      (fix all (l : list item) : Prop := match l with [] => True | x :: r => proper x /\ all r end) body
  end.
(** Plugin macro names are words of the document's language: no newline or bracket in them. *)
Definition plain_plugins (plugins : list bytes) : Prop := forall p, In p plugins -> ~ In newline p /\ ~ In "["%char p.
