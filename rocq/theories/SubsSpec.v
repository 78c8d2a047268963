(** What a substitution set means: a list of distinct steps, in application order. *)
From Verif Require Import Base SubsModel.

Definition sub_dec (x y : sub) : {x = y} + {x <> y}.
Proof. decide equality. Defined.

(** effect of one operation on the list of enabled steps *)
Definition spec_op (l : list sub) (o : op) : list sub :=
  match o with
  | OInsert s => if in_dec sub_dec s l then l else l ++ [s]
  | ORemove s => List.remove sub_dec s l
  | OPrepend s => s :: List.remove sub_dec s l
  end.
(** the steps a preset enables, in order *)
Definition normal_steps := [SpecialChars; InlineFormatting; AttrRefs; CharReplacement; Macros; PostReplacement].
Definition attr_value_steps := [SpecialChars; InlineFormatting; AttrRefs; CharReplacement].
Definition verbatim_steps := [SpecialChars; Callouts].

(** [st] shows exactly the steps [l]: its seven slots are [l] followed by blanks, and the
    membership test answers [In]. *)
Definition shows (st : subs) (l : list sub) : Prop :=
  NoDup l /\ order st = map Some l ++ repeat None (7 - length l) /\
  forall s, contains st s = true <-> In s l.

(** ** The [subs] attribute, by its documentation *)

(** the text between two commas / ends *)
Inductive kind := KAdd | KFront | KDel.
Definition named (n : bytes) (l : list sub) : Prop :=
  In (n, l) [($"none", []); ($"normal", normal_steps);
             ($"specialchars", [SpecialChars]); ($"callouts", [Callouts]);
             ($"quotes", [InlineFormatting]); ($"attributes", [AttrRefs]);
             ($"replacements", [CharReplacement]); ($"macros", [Macros]);
             ($"post_replacements", [PostReplacement]);
             (* the documentation (and the preset [verbatim]) says callouts, the code replacements *)
             ($"verbatim", [SpecialChars; CharReplacement])].
(** how a part is written *)
Definition written (p : bytes) (k : kind) (n : bytes) : Prop :=
  match k with
  | KAdd => p = n \/ p = "+"%char :: n
  | KFront => p = n ++ ["+"%char]
  | KDel => p = "-"%char :: n
  end.
Definition ops_of (k : kind) (l : list sub) : list op :=
  map (match k with KAdd => OInsert | KFront => OPrepend | KDel => ORemove end) l.
(** the operations a part asks for; parts that name nothing ask for nothing *)
Inductive asks : bytes -> list op -> Prop :=
| asks_named p k n l : written p k n -> named n l -> asks p (ops_of k l)
| asks_nothing p : (forall k n l, written p k n -> named n l -> False) -> asks p [].

Definition no_comma (p : bytes) : Prop := ~ In ","%char p.
Fixpoint joined (ps : list bytes) : bytes :=
  match ps with
  | [] => []
  | [p] => p
  | p :: r => p ++ ","%char :: joined r
  end.

(** an insert that would enable the seventh step, the one case the implementation mishandles *)
Definition overflows (l : list sub) (o : op) : Prop :=
  exists s, o = OInsert s /\ ~ In s l /\ length l = 6.
(** no operation of the history is such an insert *)
Definition no_overflow (l : list sub) (h : list op) : Prop :=
  forall h1 o h2, h = h1 ++ o :: h2 -> ~ overflows (fold_left spec_op h1 l) o.

(** ** Pass macro targets: what each comma-separated word asks for *)
Inductive pass_effect := PAdd (s : sub) | PNormal | PNothing.
Definition pass_table : list (bytes * pass_effect) :=
  [($"c", PAdd SpecialChars); ($"specialchars", PAdd SpecialChars);
   ($"a", PAdd AttrRefs); ($"attributes", PAdd AttrRefs);
   ($"r", PAdd CharReplacement); ($"replacements", PAdd CharReplacement);
   ($"m", PAdd Macros); ($"macros", PAdd Macros);
   ($"q", PAdd InlineFormatting); ($"quotes", PAdd InlineFormatting);
   ($"v", PAdd SpecialChars); ($"verbatim", PAdd SpecialChars);
   ($"n", PNormal); ($"normal", PNormal);
   ($"p", PAdd PostReplacement)].
Definition pass_reads (p : bytes) (e : pass_effect) : Prop :=
  In (p, e) pass_table \/ ((forall e', ~ In (p, e') pass_table) /\ e = PNothing).
Definition pass_apply (l : list sub) (e : pass_effect) : list sub :=
  match e with PAdd s => spec_op l (OInsert s) | PNormal => normal_steps | PNothing => l end.
