(** C19: ifeval compares values of one type by the order of that type. *)
From Verif Require Import Base Text Utf8 LexerModel LexerSpec RootModel AttrsModel IfdefModel IfdefSpec IfdefProofs IfdefProps AttrRefsModel AttrRefsSpec IfevalModel IfevalSpec IfevalProofs.
From Coq Require Import ZArith.

(** Two numbers or two texts: each operator says what it says of numbers, and of texts in byte order. *)
Theorem C19_same_type_order F o : (forall x y, eval (F := F) (VInt x) o (VInt y) = true <-> int_rel o x y) /\
  (forall x y, eval (F := F) (VStr x) o (VStr y) = true <-> text_rel o x y) /\
  (forall x y, eval (F := F) (VFloat x) o (VFloat y) = true <-> float_rel o x y).
Proof. split; [|split]; intros; [apply int_eval|apply text_eval|apply float_eval]. Qed.
Print Assumptions C19_same_type_order.
(** The order of texts is one: exactly one of less, equal, greater. *)
Theorem C19_text_order_total x y : (text_less x y /\ x <> y /\ ~ text_less y x) \/ (x = y /\ ~ text_less x y) \/ (text_less y x /\ x <> y /\ ~ text_less x y).
Proof.
  pose proof (bytes_compare_spec x y) as S0. pose proof (text_less_irrefl_asym x y) as A1. pose proof (text_less_irrefl_asym y x) as A2.
  destruct (bytes_compare x y); intuition congruence.
Qed.
Print Assumptions C19_text_order_total.
(** Equal to and not equal to, less and greater or equal, greater and less or equal: on values that can be compared exactly one of
    each pair holds. *)
Theorem C19_complement F (x y : value F) o : comparable x y -> (eval x (opposite o) y = true <-> eval x o y = false).
Proof. intro C. rewrite (eval_opposite F x y o C). destruct (eval x o y); intuition discriminate. Qed.
Print Assumptions C19_complement.
(** Booleans and nil: only equality and inequality say anything. *)
Theorem C19_booleans F (x y : bool) o : eval (F := F) (VBool x) o (VBool y) = true <-> (o = OEq /\ x = y) \/ (o = ONotEq /\ x <> y).
Proof. destruct o, x, y; cbn; intuition (try discriminate; try congruence). Qed.
Print Assumptions C19_booleans.
(** Two missing operands: they are equal, and nothing else holds of them. *)
Theorem C19_nothing F o : eval (F := F) VNil o VNil = true <-> o = OEq.
Proof. destruct o; cbn; intuition discriminate. Qed.
Print Assumptions C19_nothing.
(** Values of different types: no operator holds, but that nil on the left differs from everything else. *)
Theorem C19_mixed_types F (x y : value F) o : type_of x <> type_of y -> (eval x o y = true <-> type_of x = TNil /\ o = ONotEq).
Proof. destruct x, y, o; cbn; intuition (try discriminate; try congruence). Qed.
Print Assumptions C19_mixed_types.

(** Which value an operand has: that of [literal] (IfevalSpec.v), after the substitution of attribute values. Every operand has one,
    but a lone quotation mark, which stops the program. *)
Theorem C19_operand_value F get s : ordinary_floats F ->
  (exists q, quote_mark q /\ replace_attr_vals get s = [q]) /\ coerce F get s = Panic \/
  exists v, literal F (replace_attr_vals get s) v /\ coerce F get s = Ret v /\ forall v', literal F (replace_attr_vals get s) v' -> v' = v.
Proof.
  intro OF. unfold coerce. destruct (literal_total F (replace_attr_vals get s)) as [(q & Q & E)|(v & L)].
  - left. split; [eauto|]. rewrite E. rewrite coerce_cases; [|destruct Q as [->| ->]; discriminate|destruct Q as [->| ->]; discriminate|discriminate].
    rewrite (proj2 (parse_none [q])) by (intro n; apply quote_not_int, Q). rewrite OF by auto. destruct Q as [->| ->]; reflexivity.
  - right. exists v. split; [exact L|]. pose proof (coerce_literal F _ _ OF L) as C. split; [exact C|].
    intros v' L'. pose proof (coerce_literal F _ _ OF L') as C'. congruence.
Qed.
Print Assumptions C19_operand_value.
(** The line of a directive whose operands cannot be misread (IfevalSpec.v), with any number of spaces around the operator. *)
Theorem C19_directive F get l n o m r x y : left_operand l -> right_operand o r -> coerce F get l = Ret x -> coerce F get r = Ret y ->
  ifeval F get (ifeval_line l n o m r) = Ret (Decided (eval x o y)).
Proof. intros L R X Y. rewrite (ifeval_line_spec F get l n o m r L R), X, Y. reflexivity. Qed.
Print Assumptions C19_directive.
(** In a document: if the comparison holds the body is read as if the directive and its endif were not there, otherwise the lines
    between are skipped; nothing is reported. The attributes [get E] looks up are those at the place of the directive. *)
Theorem C19_document {A} (E : env A) F plugins (get : A -> lookup) a before out a1 l n o m r x y body after mid out2 a2 a3 : plain_plugins plugins ->
  (forall a line, IfdefModel.eval E a line = ifeval_answer F (get a) line) ->
  Forall proper before -> Forall proper body -> Forall proper after -> left_operand l -> right_operand o r -> utf8 l -> utf8 r ->
  (forall c, In c (l ++ r) -> c <> newline /\ c <> return_) ->
  kept E a before out a1 -> coerce F (get a1) l = Ret x -> coerce F (get a1) r = Ret y ->
  (if eval x o y then kept E a1 body mid a2 else mid = [] /\ a2 = a1) -> kept E a2 after out2 a3 ->
  exists k lx, read_document E plugins a (written before ++ ifeval_line l n o m r ++ [newline] ++ written body ++ $"endif::[]" ++ [newline] ++ written after) =
    Ret (Some (out ++ mid ++ out2, mkP a3 k lx [])).
Proof.
  intros PL EV Pb Pm Pa L R Ul Ur NN K X Y KB KA. unfold ifeval_line.
  set (s := l ++ repeat " "%char n ++ op_text o ++ repeat " "%char m ++ r ++ $"]").
  assert (SP : forall k, utf8 (repeat " "%char k)) by (intro k; induction k; [apply is_utf8_spec; reflexivity|change (utf8 ([" "%char] ++ repeat " "%char k)); apply utf8_app; [apply is_utf8_spec; reflexivity|assumption]]).
  assert (SN : forall k c, In c (repeat " "%char k) -> c = " "%char) by (intros k c; apply repeat_spec).
  destruct (document_ifeval E plugins PL a before out a1 s (eval x o y) body after mid out2 a2 a3) as (k & lx & RD); try assumption.
  - unfold s. split; intro I; rewrite !in_app_iff in I.
    all: assert (OP : forall c, In c (op_text o) -> In c ($"=!<>")) by (intro c; destruct o; cbn; tauto).
    all: destruct I as [I|[I|[I|[I|[I|I]]]]]; try (apply SN in I; discriminate); try (apply OP in I; cbn in I; intuition discriminate); try (cbn in I; intuition discriminate).
    all: destruct (NN LF) as [N1 N2] || idtac; try (apply in_or_app; tauto); try (apply N1; reflexivity).
    all: destruct (NN CR) as [N1' N2']; try (apply in_or_app; tauto); apply N2'; reflexivity.
  - unfold s. repeat apply utf8_app; try assumption; try apply SP; try (apply is_utf8_spec; destruct o; reflexivity).
  - unfold s. rewrite !app_length. cbn [length b list_ascii_of_string]. lia.
  - rewrite EV. unfold ifeval_answer. unfold s. fold (ifeval_line l n o m r). rewrite (C19_directive F (get a1) l n o m r x y L R X Y). reflexivity.
  - exists k, (here lx []). exact RD.
Qed.
Print Assumptions C19_document.

(** Floating point numbers for the examples: tenths, written with one digit before the point and one behind it, and [None] for nan. *)
Definition is_digit (c : ascii) : bool := (48 <=? val c)%N && (val c <=? 57)%N.
Definition tenths : floats := mkFloats (option Z)
  (fun s => match s with
            | [d; p; e] => if bytes_eqb s ($"nan") then Some None else if Ascii.eqb p "." && (is_digit d && is_digit e) then
                Some (Some (10 * Z.of_N (val d - 48) + Z.of_N (val e - 48))%Z) else None
            | _ => None end)
  (fun x y => match x, y with Some x, Some y => Some (x ?= y)%Z | _, _ => None end).
Example C19_tenths_ordinary : ordinary_floats tenths.
Proof.
  intros c s Q. destruct s as [|p [|e [|]]]; try reflexivity. cbn [fparse tenths].
  destruct (bytes_eqb [c; p; e] ($"nan")) eqn:B.
  - apply bytes_eqb_eq in B. injection B as -> _. unfold quote_mark, blank_byte in Q. cbn in Q. intuition discriminate.
  - replace (is_digit c) with false; [rewrite andb_false_r; reflexivity|].
    unfold quote_mark, blank_byte in Q. cbn in Q. intuition (subst; reflexivity).
Qed.
Definition some_names : lookup := fun n => if bytes_eqb n ($"n") then Some (AStr "41") else None.
Definition decides (s : bytes) : outcome verdict := ifeval tenths some_names ($"ifeval::[" ++ s ++ $"]").
Example C19_sample_line : ifeval_line ($"{n}") 1 OLess 2 ($"42") = $"ifeval::[{n} <  42]" /\ left_operand ($"{n}") /\ right_operand OLess ($"42") /\
  coerce tenths some_names ($"{n}") = Ret (VInt 41) /\ coerce tenths some_names ($"42") = Ret (VInt 42) /\ decides ($"{n} <  42") = Ret (Decided true).
Proof.
  split; [reflexivity|]. split; [|split].
  - split; [discriminate|]. split; [cbn; intuition (subst; discriminate)|]. intros [|? [|? [|? [|? p]]]]; cbn; try discriminate.
  - split; [discriminate|]. split; discriminate.
  - repeat split; vm_compute; reflexivity.
Qed.
Definition sample_env : env (list bytes) := mkEnv _ (fun _ _ => None) (fun a _ => a) (fun _ line => ifeval_answer tenths some_names line).
Example C19_sample_documents :
  let text := fun o => doc [$"one"; $"ifeval::[{n} " ++ o ++ $" 42]"; $"two"; $"endif::[]"; $"three"] in
  lines_and_reports (read_document sample_env [] [] (text ($"<"))) = Some ([$"one"; $"two"; $"three"], []) /\
  lines_and_reports (read_document sample_env [] [] (text ($">="))) = Some ([$"one"; $"three"], []).
Proof. split; vm_compute; reflexivity. Qed.
Example C19_orders : decides ($"'B' < 'a'") = Ret (Decided true) /\ decides ($"'a' < 'ab'") = Ret (Decided true) /\
  decides ($"1.5 >= 1.4") = Ret (Decided true) /\ decides ($"-3 > 2") = Ret (Decided false) /\ decides ($"true != false") = Ret (Decided true) /\
  decides ($"{n} != '41'") = Ret (Decided false) /\ comparable (@VFloat tenths (Some 15%Z)) (@VFloat tenths (Some 14%Z)).
Proof. repeat split; try (vm_compute; reflexivity). discriminate. Qed.

(** ** what does not hold *)
(** not complementary: nil against anything else, from the left only; numbers of the two kinds; numbers that are no numbers *)
Theorem C19_nil_asymmetric_refuted F (x : value F) : x <> VNil ->
  eval VNil ONotEq x = true /\ eval x ONotEq VNil = false /\ eval x OEq VNil = false.
Proof. intro N. destruct x; try (repeat split; reflexivity). congruence. Qed.
Print Assumptions C19_nil_asymmetric_refuted.
Theorem C19_whole_against_fraction_refuted F n x o : eval (F := F) (VInt n) o (VFloat x) = false /\ eval (F := F) (VFloat x) o (VInt n) = false.
Proof. destruct o; split; reflexivity. Qed.
Print Assumptions C19_whole_against_fraction_refuted.
Example C19_one_and_one_point_zero : decides ($"1 == 1.0") = Ret (Decided false) /\ decides ($"1 != 1.0") = Ret (Decided false) /\ decides ($"1 < 1.5") = Ret (Decided false).
Proof. repeat split; vm_compute; reflexivity. Qed.
Theorem C19_not_a_number_refuted F x y o : fcmp F x y = None -> eval (F := F) (VFloat x) o (VFloat y) = true <-> o = ONotEq.
Proof. intro N. rewrite float_eval. unfold float_rel. destruct o; rewrite N; intuition (try discriminate; try congruence). Qed.
Print Assumptions C19_not_a_number_refuted.
Example C19_nan : decides ($"nan < 1.0") = Ret (Decided false) /\ decides ($"nan >= 1.0") = Ret (Decided false) /\ decides ($"nan != nan") = Ret (Decided true).
Proof. repeat split; vm_compute; reflexivity. Qed.
Theorem C19_booleans_unordered_refuted : exists l r, decides (l ++ $" <= " ++ r) = Ret (Decided false) /\ decides (l ++ $" > " ++ r) = Ret (Decided false) /\
  decides (l ++ $" == " ++ r) = Ret (Decided true).
Proof. exists ($"true"), ($"true"). repeat split; vm_compute; reflexivity. Qed.
Print Assumptions C19_booleans_unordered_refuted.
(** an operand that is one quotation mark stops the program *)
Theorem C19_lone_quote_panics_refuted F get q n o m r : ordinary_floats F -> quote_mark q -> right_operand o r ->
  ifeval F get (ifeval_line [q] n o m r) = Panic.
Proof.
  intros OF Q R. rewrite ifeval_line_spec; [|split; [discriminate|split; [intros c [<-|[]]; destruct Q as [->| ->]; cbn; intuition discriminate|intros [|? [|? p]]; cbn; try discriminate; destruct Q as [->| ->]; discriminate]]|exact R].
  assert (E : replace_attr_vals get [q] = [q]) by (destruct Q as [->| ->]; reflexivity).
  destruct (C19_operand_value F get [q] OF) as [[_ C]|(v & _ & C & _)]; [rewrite C; reflexivity|].
  exfalso. unfold coerce in C. rewrite E in C. rewrite coerce_cases in C; [|destruct Q as [->| ->]; discriminate|destruct Q as [->| ->]; discriminate|discriminate].
  rewrite (proj2 (parse_none [q])) in C by (intro k; apply quote_not_int, Q). rewrite OF in C by auto. destruct Q as [->| ->]; discriminate C.
Qed.
Print Assumptions C19_lone_quote_panics_refuted.
(** a quoted text with an operator in it is split there *)
Theorem C19_operator_in_quotes_refuted : exists q, decides (q ++ $" == " ++ q) = Ret (Decided false) /\ (exists t, q = $"'" ++ t ++ $"'").
Proof. exists ($"'a<b'"). split; [vm_compute; reflexivity|]. exists ($"a<b"). reflexivity. Qed.
Print Assumptions C19_operator_in_quotes_refuted.
(** words without quotes, and numbers with a space before them, are all the number zero *)
Theorem C19_everything_else_is_zero_refuted : decides ($"abc == xyz") = Ret (Decided true) /\ decides ($" 5 == 0") = Ret (Decided true) /\
  decides ($"5 ==  0 ") = Ret (Decided false) /\ decides ($"0 == 5 ") = Ret (Decided true).
Proof. repeat split; vm_compute; reflexivity. Qed.
Print Assumptions C19_everything_else_is_zero_refuted.
