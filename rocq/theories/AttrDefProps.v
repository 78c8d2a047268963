(** C61: an attribute entry gives its name the value that is written, up to the end of its last line. *)
From Verif Require Import Base Text LexerModel AttrRefsModel AttrDefModel AttrDefSpec AttrDefProofs.
From Coq Require Import Lia.
Import ListNotations.

(** An entry without a value sets its name, or unsets it if there is a bang on either side. *)
Theorem C61_flag get h lead n trail ps last text rest :
  name n -> in_lines ps last text rest -> trimmed text [] -> 4 <= length (entry lead n trail ps last rest) ->
  attr_def get h (entry lead n trail ps last rest) = Ret (Some (Def (lowercase n) (VBool (negb (lead || trail))) rest false)).
Proof.
  unfold entry. intros N I T L. rewrite (app_assoc (concat _)) in *. fold (wrapped ps last) in *. rewrite (attr_def_lines get h lead n trail ps last text rest N I L).
  unfold def_value. rewrite (trim_unique _ _ T). now rewrite andb_false_r.
Qed.
Print Assumptions C61_flag.
Example C61_flag_case get h : attr_def get h ($":!Toc:" ++ [LF] ++ $"x") = Ret (Some (Def $"toc" (VBool false) ([LF] ++ $"x") false)).
Proof. reflexivity. Qed.
Example C61_flag_trail get h : attr_def get h ($":toc!:" ++ [LF] ++ $"x") = Ret (Some (Def $"toc" (VBool false) ([LF] ++ $"x") false)).
Proof. reflexivity. Qed.
Example C61_flag_hyps : name $"Toc" /\ in_lines [] [] [] [LF] /\ trimmed [] [].
Proof.
  split; [|split].
  - exists "T"%char, $"oc". split; [reflexivity|]. split; [now left|]. repeat constructor.
  - constructor; try (repeat constructor; fail).
    + exists []. now split; [constructor|].
    + repeat constructor; now intros [].
    + split; [|congruence]. intros [|? [|? q]]; discriminate.
    + right; left; eauto.
    + congruence.
  - apply (trim_spec []).
Qed.

(** With a value: the lines as they stand without the white space around them, a space or a line break for each backslash. An error is reported if the name is unset at the same time. *)
Theorem C61_text get h lead n trail ps last text rest t :
  name n -> in_lines ps last text rest -> trimmed text t -> t <> [] -> 4 <= length (entry lead n trail ps last rest) ->
  (h = false \/ ~ In "{"%char text) -> (forall z, t <> $"pass:" ++ z) ->
  attr_def get h (entry lead n trail ps last rest) = Ret (Some (Def (lowercase n) (VStr t) rest (lead || trail))).
Proof.
  unfold entry. intros N I T E L B P. rewrite (app_assoc (concat _)) in *. fold (wrapped ps last) in *. rewrite (attr_def_lines get h lead n trail ps last text rest N I L).
  unfold def_value. rewrite (trim_unique _ _ T). destruct t as [|c t]; [congruence|]. rewrite andb_true_r.
  assert (X : contains_byte "{"%char text && h = false).
  { destruct B as [->|B]; [apply andb_false_r|]. apply contains_byte_false in B. now rewrite B. }
  rewrite X. unfold pass_macro. destruct (starts_with $"pass:" (c :: t)) eqn:S; [|reflexivity].
  apply starts_with_spec in S as [z S]. now destruct (P z).
Qed.
Print Assumptions C61_text.
Example C61_text_case get h : attr_def get h ($":My-Name:  one \" ++ [LF] ++ $"two + \" ++ [LF] ++ $"three " ++ [LF] ++ $"rest")
  = Ret (Some (Def $"my-name" (VStr ($"one two +" ++ [LF] ++ $"three")) ([LF] ++ $"rest") false)).
Proof. destruct h; reflexivity. Qed.
Example C61_text_hyps : in_lines [$"  one"; $"two +"] $"three " ($"  one two +" ++ [LF] ++ $"three ") ([LF] ++ $"rest").
Proof.
  constructor.
  - exists [$"  one "; $"two +" ++ [LF]]. split; [|reflexivity]. constructor; [|constructor; [apply (wrap_hard $"two")|constructor]].
    apply (wrap_soft $"  one"). intros q H. assert (X : ends_with $"  one" $" +" = true) by (apply ends_iff; eauto). discriminate.
  - repeat (constructor; [split; cbn; intuition discriminate|]). constructor.
  - repeat constructor; discriminate.
  - split; [|discriminate]. intros q H. assert (X : ends_with $"three " $" \" = true) by (apply ends_iff; eauto). discriminate.
  - right; left. now exists $"rest".
  - discriminate.
Qed.

(** In the header references are replaced first. *)
Theorem C61_header get lead n trail ps last text rest t :
  name n -> in_lines ps last text rest -> trimmed text t -> 4 <= length (entry lead n trail ps last rest) ->
  In "{"%char t -> (forall z, replace_attr_vals get t <> $"pass:" ++ z) ->
  attr_def get true (entry lead n trail ps last rest) = Ret (Some (Def (lowercase n) (VStr (replace_attr_vals get t)) rest (lead || trail))).
Proof.
  unfold entry. intros N I T L B P. rewrite (app_assoc (concat _)) in *. fold (wrapped ps last) in *. rewrite (attr_def_lines get true lead n trail ps last text rest N I L).
  unfold def_value. rewrite (trim_unique _ _ T).
  assert (X : contains_byte "{"%char text = true).
  { apply contains_byte_spec. pose proof T as (a & z & -> & _). apply in_or_app. right. apply in_or_app. now left. }
  destruct t as [|c t]; [destruct B|]. rewrite X, !andb_true_r. unfold pass_macro.
  destruct (starts_with $"pass:" (replace_attr_vals get (c :: t))) eqn:S; [|reflexivity].
  apply starts_with_spec in S as [z S]. now destruct (P z).
Qed.
Print Assumptions C61_header.
Example C61_header_case : attr_def (fun n => if starts_with $"v" n then Some (AttrsModel.AStr "1.0") else None) true ($":file: a-{v}.adoc" ++ [LF])
  = Ret (Some (Def $"file" (VStr $"a-1.0.adoc") [LF] false)).
Proof. vm_compute. reflexivity. Qed.

(** The value [pass:[&...;]] is the entity. *)
Theorem C61_entity get h lead n trail ps last text rest e :
  name n -> in_lines ps last text rest -> trimmed text ($"pass:[&" ++ e ++ $";]") -> entity e -> 4 <= length (entry lead n trail ps last rest) ->
  (h = false \/ ~ In "{"%char text) ->
  attr_def get h (entry lead n trail ps last rest) = Ret (Some (Def (lowercase n) (VStr ($"&" ++ e ++ $";")) rest (lead || trail))).
Proof.
  unfold entry. intros N I T E L B. rewrite (app_assoc (concat _)) in *. fold (wrapped ps last) in *. rewrite (attr_def_lines get h lead n trail ps last text rest N I L).
  unfold def_value. rewrite (trim_unique _ _ T).
  assert (X : contains_byte "{"%char text && h = false).
  { destruct B as [->|B]; [apply andb_false_r|]. apply contains_byte_false in B. now rewrite B. }
  rewrite X. cbn [b app]. rewrite andb_true_r.
  assert (P : pass_macro ($"pass:[&" ++ e ++ $";]") = $"&" ++ e ++ $";").
  { unfold pass_macro. assert (S1 : starts_with $"pass:" ($"pass:[&" ++ e ++ $";]") = true) by reflexivity. rewrite S1. unfold simple_entity.
    assert (S2 : starts_with $"pass:[&" ($"pass:[&" ++ e ++ $";]") = true) by (apply starts_with_spec; eauto).
    assert (S3 : ends_with ($"pass:[&" ++ e ++ $";]") $";]" = true) by (apply ends_iff; exists ($"pass:[&" ++ e); now rewrite <- app_assoc).
    assert (S4 : (9 <=? length ($"pass:[&" ++ e ++ $";]")) = true) by (apply Nat.leb_le; rewrite !app_length; cbn; lia).
    rewrite S2, S3, S4. cbn [andb].
    assert (K : removelast (skipn 6 ($"pass:[&" ++ e ++ $";]")) = $"&" ++ e ++ $";").
    { change (skipn 6 ($"pass:[&" ++ e ++ $";]")) with ("&"%char :: e ++ $";]"). replace ("&"%char :: e ++ $";]") with (("&"%char :: e ++ $";") ++ ["]"%char]) by (cbn [app]; rewrite <- app_assoc; reflexivity).
      apply removelast_snoc. }
    rewrite K. assert (M : removelast (skipn 1 ($"&" ++ e ++ $";")) = e) by (apply (removelast_snoc e ";"%char)). rewrite M.
    assert (Y : forall f d, some_digits f d -> some_of f d = true).
    { intros f d [D F]. destruct d; [congruence|]. unfold some_of. apply forallb_forall. now apply Forall_forall. }
    assert (Z : entity_name e = true).
    { destruct E as [d D|d D|c r C D]; cbn [entity_name].
      - rewrite Ascii.eqb_refl, (Y _ _ D). reflexivity.
      - rewrite Ascii.eqb_refl, Ascii.eqb_refl, (Y _ _ D). apply orb_true_r.
      - destruct (Ascii.eqb_spec c "#") as [->|]; [discriminate|]. now rewrite C, (Y _ _ D). }
    now rewrite Z. }
  now rewrite <- P.
Qed.
Print Assumptions C61_entity.
Example C61_entity_case get h : attr_def get h ($":tip: pass:[&#128161;]" ++ [LF]) = Ret (Some (Def $"tip" (VStr $"&#128161;") [LF] false)).
Proof. destruct h; reflexivity. Qed.

(** What is read as an entry is one, and it is read from its colon to the end of a line. *)
Theorem C61_entries_only get h r d : attr_def get h (":"%char :: r) = Ret (Some d) ->
  exists lead n trail lines, ":"%char :: r = head_of lead n trail ++ lines ++ d_rest d /\ name n /\ d_name d = lowercase n /\ line_end (d_rest d).
Proof.
  intros H. apply attr_def_some in H as (lead & n & trail & t & E & N & D & L & u & U). exists lead, n, trail, u. rewrite E, U. auto.
Qed.
Print Assumptions C61_entries_only.
(** No entry is passed over, but one that ends the source right behind a name of one letter. *)
Theorem C61_entries_all get h lead n trail t : name n -> 4 <= length (head_of lead n trail ++ t) -> attr_def get h (head_of lead n trail ++ t) <> Ret None.
Proof.
  intros N L. rewrite (attr_def_head get h lead n trail t N L). destruct (to_eol t) as [v rest]. now destruct (gather _ v rest) as [[]|].
Qed.
Print Assumptions C61_entries_all.
Theorem C61_short_refuted get h : exists n, name n /\ attr_def get h (head_of false n false) = Ret None.
Proof. exists $"a". split; [|reflexivity]. exists "a"%char, []. repeat split; [now left|constructor]. Qed.

(** Reading an entry panics only if the source ends in a backslash, and then it may. *)
Theorem C61_panics_only get h r : attr_def get h (":"%char :: r) = Panic -> exists u, ":"%char :: r = u ++ $"\".
Proof. apply attr_def_panics. Qed.
Print Assumptions C61_panics_only.
Theorem C61_panics_refuted get h : attr_def get h $":a: b \" = Panic.
Proof. reflexivity. Qed.

(** If the lines end in carriage return and line feed a value is not continued: the second line is left to be read as text. *)
Theorem C61_crlf_refuted get h : attr_def get h ($":a: one \" ++ [CR; LF] ++ $"two" ++ [CR; LF]) = Ret (Some (Def $"a" (VStr $"one") ([LF] ++ $"two" ++ [CR; LF]) false)).
Proof. destruct h; reflexivity. Qed.
