(** C50: text to be shown verbatim (listings, literal blocks, passthrough blocks) is shown as it is written. *)
From Verif Require Import InlineModel InlineSpec VerbatimSpec VerbatimProofs.

(** Lines the parser leaves alone are shown byte for byte, with line feeds between them, `&`, `<` and `>` escaped exactly when the substitutions ask for it; and nothing is left unread. *)
Theorem C50_shown_as_written_partial :
  forall E sb s lss f, literal_subs sb -> subs_of s = sb -> verbatim_lines E sb lss -> hd [] lss <> [] -> fuel_of lss <= f ->
  exists ns, parse_inlines_until f E [] s (map line_of lss) = Done s ns [] /\ reads (contains sb SpecialChars) ns (joined (map (written None) lss)).
Proof.
  intros E sb s lss f LS SB V NE F. destruct lss as [|ts lss]; [now contradiction NE|]. cbn [hd] in NE.
  assert (G : Forall (fun ts => left_alone (contains sb SpecialChars) ts /\ plus_spaced None ts /\ stops E (line_of ts) = false /\ stops E (new_line ts) = false /\ (contains sb Callouts = false -> ~ comment_line ts)) (ts :: lss)).
  { eapply Forall_impl; [|exact V]. intros u (H1 & H2 & H3 & H4). pose proof (H3 _ (proj1 (line_of_spec u))) as S1. pose proof (H3 (new_line u) eq_refl) as S2. tauto. }
  assert (A : so_far (contains sb SpecialChars) acc0 []) by (exists []; split; [constructor|split; [reflexivity|apply nil_fit]]).
  destruct (lines_alone E sb s LS (ts :: lss) acc0 [] f G A F) as (ns & N1 & N2). exists ns. split; [|exact N2].
  cbn [map parse_inlines_until]. rewrite (proj1 (line_of_spec ts)). destruct ts as [|t r]; [congruence|]. rewrite SB. exact N1.
Qed.
Print Assumptions C50_shown_as_written_partial.

(** a listing of four lines, one of them empty, meets the hypotheses *)
Definition listing : string := "fn max<T: Ord>(a: T, b: T) -> T {
  let *c = a + b; // _sum_ (C) ...

  https://x.y[z] && `b`'s {c}".
Example C50_listing_example : verbatim_lines (ascii_env true) verbatim (para listing) /\ hd [] (para listing) <> [] /\ joined (map (written None) (para listing)) = list_ascii_of_string listing.
Proof.
  split; [|split; [vm_compute; discriminate|vm_compute; reflexivity]]. unfold verbatim_lines.
  let l := eval vm_compute in (para listing) in change (para listing) with l.
  repeat (constructor; [split; [apply aloneb_sound; reflexivity|split; [apply spacedb_sound; reflexivity|split; [reflexivity|discriminate]]]|]). constructor.
Qed.
Example C50_listing_nodes : exists ns, nodes (parse_text true verbatim listing) = Some ns /\ reads true ns (list_ascii_of_string listing).
Proof.
  destruct C50_listing_example as (V & NE & J).
  destruct (C50_shown_as_written_partial (ascii_env true) verbatim (start verbatim) (para listing) 300 (conj eq_refl (conj eq_refl (conj eq_refl eq_refl))) eq_refl V NE) as (ns & N1 & N2).
  { apply Nat.leb_le. vm_compute. reflexivity. }
  exists ns. rewrite J in N2. split; [|exact N2]. unfold parse_text. rewrite N1. reflexivity.
Qed.
(** where an attribute is referred to, the reference is shown and not the value *)
Example C50_reference : let at3 := Info false 2 None 0 in
  left_alone true [Tok Word $"a"; TokI Whitespace $" " (Info false 1 None 0); TokI AttrRef $"{c}" at3; TokI Word $"value" at3; TokI Word $"x" (Info false 5 None 0)] /\
  written None [Tok Word $"a"; TokI Whitespace $" " (Info false 1 None 0); TokI AttrRef $"{c}" at3; TokI Word $"value" at3; TokI Word $"x" (Info false 5 None 0)] = $"a {c}x".
Proof. split; [apply aloneb_sound; reflexivity|reflexivity]. Qed.
(** and so does a passthrough block, where nothing is escaped *)
Example C50_pass_block_example : verbatim_lines (ascii_env true) none (para "<b>*x*</b>
&amp;") /\ nodes (parse_text true none "<b>*x*</b>
&amp;") = Some [NText $"<b>*x*</b>"; NNewline; NText $"&amp;"].
Proof.
  split; [|vm_compute; reflexivity]. unfold verbatim_lines. match goal with |- Forall _ ?x => let l := eval vm_compute in x in change x with l end.
  repeat (constructor; [split; [apply aloneb_sound; reflexivity|split; [apply spacedb_sound; reflexivity|split; [reflexivity|intros _; apply commentb_sound; reflexivity]]]|]). constructor.
Qed.

(** Without these conditions it is false: in a listing two increments make a passthrough of what is between them and lose their plus signs, a backslash is dropped, `<<b>>` becomes a cross reference, `[[i]]`
    becomes an anchor, a plus sign at the end of a line becomes a line break, `&#169;` is and `&lt;` are shown as the character they stand for; in a passthrough block a line that starts with `//` is dropped. *)
Theorem C50_any_text_refuted :
  ~ (forall x ns, nodes (parse_text true verbatim x) = Some ns -> reads true ns (list_ascii_of_string x)).
Proof.
  intros H. specialize (H "i++; j++;"%string [NText $"i"; NPass [NText $"; j"]; NText $";"] ltac:(vm_compute; reflexivity)).
  inversion H; subst. match goal with H : reads _ (NPass _ :: _) _ |- _ => inversion H end.
Qed.
Print Assumptions C50_any_text_refuted.
Theorem C50_what_is_lost_refuted :
  nodes (parse_text true verbatim "i++; j++;") = Some [NText $"i"; NPass [NText $"; j"]; NText $";"] /\
  nodes (parse_text true verbatim "print(""a\*b"")") = Some [NText $"print(""a"; NDiscarded; NText $"*b"")"] /\
  nodes (parse_text true verbatim "a <<b>> c") = Some [NText $"a "; NXref $"b" None true; NText $" c"] /\
  nodes (parse_text true verbatim "m[[i]] x") = Some [NText $"m"; NAnchor $"i" []; NText $" x"] /\
  nodes (parse_text true verbatim "a +
b") = Some [NText $"a"; NLineBreak; NText $"b"] /\
  nodes (parse_text true verbatim "&#169;") = Some [NText $"&#169;"] /\
  nodes (parse_text true verbatim "a &lt; b") = Some [NText $"a &lt; b"] /\
  nodes (parse_text true none "a
// b
c") = Some [NText $"a"; NNewline; NComment $" b"; NText $"c"].
Proof. repeat split; vm_compute; reflexivity. Qed.
Print Assumptions C50_what_is_lost_refuted.
