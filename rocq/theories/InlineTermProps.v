(** C52: parsing the text of a paragraph, a title or a cell ends, whatever the text is. *)
From Coq Require Import String Ascii.
From Verif Require Import Base InlineModel InlineSpec InlineTermSpec InlineTermProofs.

(** The inline parser ends for every text, every set of substitutions, every stop sequence, every state it is called in and every surrounding, after a number of nested steps that grows linearly with the
    size of the text. The tokens need not be such as the lexer gives. *)
Theorem C52_ends : forall E q s ls fuel, enough ls <= fuel -> parse_inlines_until fuel E q s ls <> Loops.
Proof. exact parse_ends. Qed.
Print Assumptions C52_ends.

(** Its result does not depend on the number of steps allowed, if they are enough. *)
Theorem C52_result : forall E q s ls, exists r, r <> Loops /\ forall fuel, enough ls <= fuel -> parse_inlines_until fuel E q s ls = r.
Proof.
  intros E q s ls. exists (parse_inlines_until (enough ls) E q s ls). split; [now apply parse_ends|]. intros fuel H. pose proof (parse_ends E q s ls (enough ls) (le_n _)) as N.
  unfold parse_inlines_until in *. destruct ls as [|l ls]; [reflexivity|]. destruct (toks l); [reflexivity|]. now apply go_more.
Qed.
Print Assumptions C52_result.

(** nested formatting, links, passthroughs, index terms and footnotes over several lines *)
Definition tangled : string := "*a _b `c #d ^e^ ~f~# `_ **g** __h__ +i+ ++j++ pass:q[*k*]
image:l[m,n=""o, p""] link:q[r *s* [t\]] footnote:[u _v_ https://w.x[y]] (((a, ""b, c"", d))) ((e))
<<f,g *h*>> [[i,j]] kbd:[k] menu:l[m > n] `+o+` ""`p`"" '`q`' r -- s... (C) <1> \*t* {u} -> & < >".
Example C52_tangled : exists s ns, parse_inlines_until (enough (map line_of (para tangled))) (ascii_env true) [] (start normal) (map line_of (para tangled)) = Done s ns [] /\ 40 < length ns.
Proof. eexists. eexists. split; [vm_compute; reflexivity|]. vm_compute. lia. Qed.
(** too few steps: the parser is still at work *)
Example C52_too_few : parse_inlines_until 3 (ascii_env true) [] (start normal) (map line_of (para "a *b* c")) = Loops.
Proof. vm_compute. reflexivity. Qed.
