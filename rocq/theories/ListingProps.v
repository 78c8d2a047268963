(** C73: the lines of a listing or literal block come through a whole conversion unchanged. *)
From Verif Require Import Base BlockModel BlockSpec WholeModel WholeSpec OutlineModel OutlineSpec BoxSpec ListingProofs BoxProps.
Import ListNotations.

(** In a text with delimited blocks, the lines between the delimiters of a listing or literal block are shown between one pair of tags, from the first line that is not blank to the last, with their line ends and
    with nothing changed but the three special characters, which are written so that they are shown: marks for bold text and the like stay what they are. And what is before and after is as if the block were not there.
    This holds in articles and books and in builds with and without debug assertions. *)
Theorem C73_listings plugins P author_set revision_line wants (before after : list body) (b : box) (ls : list line) :
  (forall x, custom_subs P [] x = x) -> bodies_ok before = true -> bodies_ok after = true -> as_is b = true -> forallb line_ok ls = true ->
  OutlineModel.convert plugins P author_set revision_line wants (source (before ++ [Shown b ls] ++ after)) =
  Some (html before ++ box_html b (escape (join newline (map line_source (trimmed ls)))) ++ html after).
Proof.
  intros NS OB OA AI OL. rewrite (C72_blocks plugins P author_set revision_line wants _ NS (around_ok before after b ls OB OA AI OL)). unfold html. rewrite !map_app, !concat_app. cbn [map concat body_html]. now rewrite app_nil_r.
Qed.

(** So what a listing shows says which text it was made from, up to blank lines at its ends. *)
Theorem C73_recover plugins P author_set revision_line wants (b : box) (ls ms : list line) :
  (forall x, custom_subs P [] x = x) -> as_is b = true -> forallb line_ok ls = true -> forallb line_ok ms = true ->
  OutlineModel.convert plugins P author_set revision_line wants (source [Shown b ls]) = OutlineModel.convert plugins P author_set revision_line wants (source [Shown b ms]) ->
  join newline (map line_source (trimmed ls)) = join newline (map line_source (trimmed ms)).
Proof.
  intros NS AI OL OM E. pose proof (C73_listings plugins P author_set revision_line wants [] [] b ls NS eq_refl eq_refl AI OL) as E1. pose proof (C73_listings plugins P author_set revision_line wants [] [] b ms NS eq_refl eq_refl AI OM) as E2. cbn [app] in E1, E2.
  rewrite E1, E2 in E. injection E as E. apply app_inv_tail in E. now apply box_html_inj, escape_inj in E.
Qed.

(** lines with special characters and marks, blank lines at both ends and in between; a listing in a sidebar, after a list *)
Definition C73_lines : list line := [[]; [w $"if"; w $"a"; (Special "<", []); (Marked Strong [$"b"], []); (Special "&", []); (Marked Code [$"c"; $"d"], $".")]; []; []; [w $"then"]; []].
Example C73_case : forallb line_ok C73_lines = true /\ map line_source (trimmed C73_lines) = [$"if a < *b* & `c d`."; []; []; $"then"] /\
  source [list_of Bulleted $"x"; Box SidebarBox [Shown ListingBox C73_lines]; Shown LiteralBox [[w $"y"]]] = InlineSpec.joined [ $"* x"; $"****"; $"----"; []; $"if a < *b* & `c d`."; []; []; $"then"; []; $"----"; $"****"; $"...."; $"y"; $"...." ] /\
  bodies_ok [list_of Bulleted $"x"; Box SidebarBox [Shown ListingBox C73_lines]; Shown LiteralBox [[w $"y"]]] = true /\
  html [list_of Bulleted $"x"; Box SidebarBox [Shown ListingBox C73_lines]; Shown LiteralBox [[w $"y"]]] =
    $"<div class=""ulist""><ul><li><p>x</p></li></ul></div><div class=""sidebarblock""><div class=""content""><div class=""listingblock""><div class=""content""><pre>if a &lt; *b* &amp; `c d`.
" ++ $"
" ++ $"
then</pre></div></div></div></div><div class=""literalblock""><div class=""content""><pre>y</pre></div></div>".
Proof. vm_compute. repeat split. Qed.

(** This is not so for every text. A line of white space that ends the first lines of a listing is lost. What looks like a character reference is shown as the character, so that two texts look the same. And cross
    references are still made. *)
Theorem C73_any_text_refuted :
  let go l := OutlineModel.convert [] (plain_params true false) (fun _ => true) (fun _ => true) (fun _ => true) (join newline l) in
  go [$"----"; $"a"; $"  "; $"b"; $"----"] = go [$"----"; $"a"; $"b"; $"----"] /\ go [$"----"; $"a"; []; $"b"; $"----"] <> go [$"----"; $"a"; $"b"; $"----"] /\
  go [$"----"; $"a &amp; b"; $"----"] = go [$"----"; $"a & b"; $"----"] /\ go [$"----"; $"a & b"; $"----"] <> None /\
  exists t, parse [] (plain_params true false) (fun _ => true) (fun _ => true) (join newline [$"----"; $"a<<b>>"; $"----"]) = Some (Sections [BDelimited no_meta CListing t (BlockModel.Simple [InlineModel.NText $"a"; InlineModel.NXref $"b" None true]) true] []).
Proof. cbv zeta. split; [vm_compute; reflexivity|]. split; [vm_compute; discriminate|]. split; [vm_compute; reflexivity|]. split; [vm_compute; discriminate|]. eexists. vm_compute. reflexivity. Qed.
Print Assumptions C73_listings.
Print Assumptions C73_recover.
Print Assumptions C73_any_text_refuted.
