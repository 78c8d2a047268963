(** C51: the text of an inline passthrough is shown as it is written, and what is around it too. *)
From Coq Require Import String Ascii.
From Verif Require Import InlineModel InlineSpec VerbatimSpec VerbatimProofs PassthruSpec PassthruProofs.

(** One, two or three plus signs on both sides of a text, in a line of words. (A single plus sign has white space or nothing before it, no white space on the inside, and no word after it.) Everything is shown
    as it is written, and `&`, `<` and `>` are escaped unless there are three plus signs. *)
Theorem C51_plus_partial :
  forall E s pre open body close post f,
  (forall l, stops E l = false) -> Forall plain_tok pre -> Forall plain_tok post -> passed_through (negb (length open =? 3)) body -> without Plus body ->
  Forall plus_tok open -> Forall plus_tok close -> length open = length close -> 1 <= length open <= 3 ->
  (length open = 1 -> single_ok pre body post) ->
  length pre + length post + length body + 20 <= f ->
  exists ns s', parse_inlines_until f E [] s [line_of (pre ++ open ++ body ++ close ++ post)] = Done s' (text_node (text_of pre) ++ NPass ns :: text_node (text_of post)) [] /\
                reads (negb (length open =? 3)) ns (written None body).
Proof.
  intros E s pre open body close post f ST P1 P2 (B & BN & BC) BP O C LE SZ ONE F.
  pose proof (plus_may pre body post open close _ P1 P2 B BN O C LE SZ ONE) as MAY.
  pose proof (plus_replaced E s pre body post open close _ P1 P2 B BP BN BC O C LE SZ ONE) as REP.
  assert (LS : literal_subs (from_pass_plus_len (length open))) by (unfold from_pass_plus_len; destruct (length open =? 3); repeat split; reflexivity).
  assert (SE : contains (from_pass_plus_len (length open)) SpecialChars = negb (length open =? 3)) by (unfold from_pass_plus_len; destruct (length open =? 3); reflexivity).
  rewrite <- SE in *. apply (replaced_line E s pre body post (hd (Tok Plus []) open) (from_pass_plus_len (length open)) LS ST P1 P2 B BN BC); auto.
  - rewrite (proj1 (line_of_spec _)). destruct pre, open; cbn in SZ |- *; first [discriminate|lia].
  - unfold is_comment. rewrite (proj1 (line_of_spec _)). destruct pre as [|u r]; cbn [app].
    + destruct open as [|o r]; [cbn in SZ; lia|]. cbn [app starts_with_seq satisfies]. unfold is_k. rewrite (proj1 (Forall_inv O)). apply andb_false_r.
    + cbn [starts_with_seq satisfies]. unfold is_k. destruct (Forall_inv P1) as [-> | [-> _] ]; apply andb_false_r.
Qed.
Print Assumptions C51_plus_partial.

(** The pass macro, with the substitutions its target asks for. *)
Theorem C51_pass_macro_partial :
  forall E s pre name target opening body closing post sb f,
  (forall l, stops E l = false) -> Forall plain_tok pre -> Forall plain_tok post -> passed_through (contains sb SpecialChars) body -> without OpenBracket body -> without CloseBracket body ->
  tk name = MacroName -> tx name = $"pass:" -> tk opening = OpenBracket -> tk closing = CloseBracket -> Forall (fun t => tk t = Word \/ tk t = Comma) target ->
  from_pass_target (dbg E) (text_of target) = Ret sb -> literal_subs sb ->
  length pre + length post + length body + 20 <= f ->
  exists ns s', parse_inlines_until f E [] s [line_of (pre ++ name :: target ++ opening :: body ++ closing :: post)] = Done s' (text_node (text_of pre) ++ NPass ns :: text_node (text_of post)) [] /\
                reads (contains sb SpecialChars) ns (written None body).
Proof.
  intros E s pre name target opening body closing post sb f ST P1 P2 (B & BN & BC) BO BK N1 N2 OP CL TG SB LS F.
  pose proof (macro_may pre target body post name opening closing (conj N1 N2)) as MAY.
  pose proof (macro_replaced E s pre target body post name opening closing sb _ P1 P2 B BO BK BN BC (conj N1 N2) OP CL TG SB) as REP.
  apply (replaced_line E s pre body post name sb LS ST P1 P2 B BN BC); auto.
  - rewrite (proj1 (line_of_spec _)). destruct pre; discriminate.
  - unfold is_comment. rewrite (proj1 (line_of_spec _)). destruct pre as [|u r]; cbn [app starts_with_seq satisfies]; unfold is_k.
    + rewrite N1. apply andb_false_r.
    + destruct (Forall_inv P1) as [-> | [-> _] ]; apply andb_false_r.
Qed.
Print Assumptions C51_pass_macro_partial.

(** lines that meet the hypotheses *)
Ltac passed := split; [apply aloneb_sound; reflexivity|split; [discriminate|apply commentb_sound; reflexivity] ].
Ltac words := repeat (constructor; [first [left; reflexivity|right; split; reflexivity]|]); try apply Forall_nil.
Ltac lacks := let t := fresh in let T := fresh in let K := fresh in intros (t & T & K); repeat (destruct T as [<-|T]; [discriminate K|]); exact T.
Ltac cut x a n := let v := eval vm_compute in (firstn n (skipn a (concat (para x)))) in exists v.
Example C51_plus_example : exists pre open body close post,
  concat (para "see ++*<b>* & {c}++ now") = pre ++ open ++ body ++ close ++ post /\ written None body = $"*<b>* & {c}" /\
  Forall plain_tok pre /\ Forall plain_tok post /\ passed_through true body /\ without Plus body /\ Forall plus_tok open /\ Forall plus_tok close /\ length open = 2 /\ length close = 2.
Proof.
  let x := constr:("see ++*<b>* & {c}++ now"%string) in cut x 0 2; cut x 2 2; cut x 4 9; cut x 13 2; cut x 15 9.
  split; [vm_compute; reflexivity|]. split; [vm_compute; reflexivity|]. split; [words|]. split; [words|]. split; [passed|]. split; [lacks|].
  split; [repeat constructor|]. split; [repeat constructor|]. split; reflexivity.
Qed.
Example C51_single_plus_example : exists pre open body close post,
  concat (para "see +*b* or [c]+ now") = pre ++ open ++ body ++ close ++ post /\ written None body = $"*b* or [c]" /\
  Forall plain_tok pre /\ Forall plain_tok post /\ passed_through true body /\ without Plus body /\ Forall plus_tok open /\ Forall plus_tok close /\ length open = 1 /\ length close = 1 /\ single_ok pre body post.
Proof.
  let x := constr:("see +*b* or [c]+ now"%string) in cut x 0 2; cut x 2 1; cut x 3 9; cut x 12 1; cut x 13 9.
  split; [vm_compute; reflexivity|]. split; [vm_compute; reflexivity|]. split; [words|]. split; [words|]. split; [passed|]. split; [lacks|].
  split; [repeat constructor|]. split; [repeat constructor|]. split; [reflexivity|]. split; [reflexivity|]. repeat split; try reflexivity. right. reflexivity.
Qed.
Ltac cut1 x a := let v := eval vm_compute in (nth a (concat (para x)) (Tok Eof [])) in exists v.
Example C51_pass_macro_example : exists pre name target opening body closing post sb,
  concat (para "see pass:c[*<b>* & c++] now") = pre ++ name :: target ++ opening :: body ++ closing :: post /\ written None body = $"*<b>* & c++" /\
  Forall plain_tok pre /\ Forall plain_tok post /\ passed_through true body /\ without OpenBracket body /\ without CloseBracket body /\
  tk name = MacroName /\ tx name = $"pass:" /\ tk opening = OpenBracket /\ tk closing = CloseBracket /\ Forall (fun t => tk t = Word \/ tk t = Comma) target /\
  (forall dbg, from_pass_target dbg (text_of target) = Ret sb) /\ literal_subs sb /\ contains sb SpecialChars = true.
Proof.
  let x := constr:("see pass:c[*<b>* & c++] now"%string) in cut x 0 2; cut1 x 2; cut x 3 1; cut1 x 4; cut x 5 11; cut1 x 16; cut x 17 9.
  exists only_special_chars.
  split; [vm_compute; reflexivity|]. split; [vm_compute; reflexivity|]. split; [words|]. split; [words|]. split; [passed|]. split; [lacks|]. split; [lacks|].
  repeat (split; [reflexivity|]). split; [repeat constructor|]. split; [intros []; vm_compute; reflexivity|]. split; [|reflexivity]. repeat split; reflexivity.
Qed.

(** Without these conditions it is false: a backslash is dropped, a cross reference is one, a comment is dropped; and the plus signs after a passthrough are not looked at, so the next passthrough has one plus sign
    less and is no longer raw. *)
Theorem C51_any_text_refuted :
  ~ (forall x ns, ~ In "+"%char x -> x <> [] -> nodes (parse_text true normal (string_of_list_ascii ($"+++" ++ x ++ $"+++"))) = Some ns -> exists m, ns = [NPass m] /\ reads false m x).
Proof.
  intros H. destruct (H $"<<a>>" [NPass [NXref $"a" None true]]) as (m & M & R).
  - intros C. repeat (destruct C as [C|C]; [discriminate C|]). exact C.
  - discriminate.
  - vm_compute. reflexivity.
  - injection M as <-. inversion R.
Qed.
Print Assumptions C51_any_text_refuted.
Theorem C51_what_is_lost_refuted :
  nodes (parse_text true normal "+++a\*b+++") = Some [NPass [NText $"a"; NDiscarded; NText $"*b"]] /\
  nodes (parse_text true normal "+++<<a>>+++") = Some [NPass [NXref $"a" None true]] /\
  nodes (parse_text true normal "+// a+") = Some [NPass []] /\
  nodes (parse_text true normal "++a++ +++<u>+++") = Some [NPass [NText $"a"]; NText $" +"; NPass [NSpecial SLessThan; NText $"u"; NSpecial SGreaterThan]; NText $"+"].
Proof. repeat split; vm_compute; reflexivity. Qed.
Print Assumptions C51_what_is_lost_refuted.
(** A pass macro with nothing in its brackets panics. *)
Theorem C51_empty_pass_macro_panics : forall debug, parse_text debug normal "pass:[]" = Crashed.
Proof. intros []; vm_compute; reflexivity. Qed.
Print Assumptions C51_empty_pass_macro_panics.
