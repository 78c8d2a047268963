(** Property C69: the JSON text the web playground gets. *)
From Verif Require Import Base JsonModel JsonSpec JsonProofs.

(** JavaScript reads the HTML back, byte for byte, exactly if it has no backslash and no control character
    but line feeds. *)
Theorem C69_html_partial : forall x, read_html (reply (Html x)) = Some (text x) <-> plain x.
Proof.
  intros x. rewrite read_html_reply. split.
  - intros E. exact (proj2 (read_back (length x) x _ (Nat.le_refl _) E) eq_refl).
  - intros P. unfold raw. change ($"""}") with (""""%char :: $"}"). rewrite (body_escape x P). reflexivity.
Qed.
Print Assumptions C69_html_partial.
Definition ex_html : bytes := $"<p class=""a"">b" ++ [NL] ++ $"c</p>".
Example C69_html_case : read_html (reply (Html ex_html)) = Some (text ex_html) /\
  reply (Html ex_html) = $"{""success"":true,""html"":""<p class=\""a\"">b\nc</p>""}".
Proof. split; vm_compute; reflexivity. Qed.

(** A backslash in the HTML makes the reply no JSON, or another text. *)
Theorem C69_backslash_refuted :
  read_html (reply (Html $"a\d")) = None /\
  read_html (reply (Html $"C:\new")) = Some (text ($"C:" ++ [NL] ++ $"ew")) /\
  read_html (reply (Html $"\""")) = None /\ read_html (reply (Html ["a"; "009"; "b"]%char)) = None.
Proof. repeat split; vm_compute; reflexivity. Qed.
Print Assumptions C69_backslash_refuted.

(** One diagnostic is read back as it was. *)
Theorem C69_one_error : forall x, plain x -> read_errors (reply (Diagnostics [x])) = Some [text x].
Proof.
  intros x P. unfold read_errors, reply. cbn [join].
  change ($"{""success"":false,""errors"":[""" ++ escape x ++ $"""]}")
    with ($"{""success"":false,""errors"":[" ++ (""""%char :: escape x ++ """"%char :: $"]}")).
  rewrite behind_app. cbn [length]. cbn [strings]. rewrite Ascii.eqb_refl, (body_escape x P). reflexivity.
Qed.
Print Assumptions C69_one_error.
Example C69_one_error_case : plain ($"--> a:1:2" ++ [NL] ++ $"  | ""x"" ^ bad") /\
  read_errors (reply (Diagnostics [$"--> a:1:2" ++ [NL] ++ $"  | ""x"" ^ bad"])) =
  Some [text ($"--> a:1:2" ++ [NL] ++ $"  | ""x"" ^ bad")].
Proof. split; [repeat constructor; try discriminate; vm_compute; congruence|vm_compute; reflexivity]. Qed.

(** More diagnostics are read as one: the quotes between them are escaped too. *)
Theorem C69_errors_are_one_refuted :
  forall l, l <> [] -> Forall plain l -> read_errors (reply (Diagnostics l)) = Some [text (join $""",""" l)].
Proof.
  intros l _ F. exact (C69_one_error (join $""",""" l) (join_plain l F)).
Qed.
Print Assumptions C69_errors_are_one_refuted.
Example C69_two_errors : read_errors (reply (Diagnostics [$"first"; $"second"])) = Some [text $"first"",""second"].
Proof. vm_compute. reflexivity. Qed.
