(** Further recognition lemmas about the source lexer. *)
From Verif Require Import Base Utf8 LexerModel LexerSpec LexerProofs.

Lemma digit_is_ascii c : is_digit c = true -> ascii7 c = true.
Proof. destruct c as [[] [] [] [] [] [] [] []]; vm_compute; intro H; first [reflexivity|discriminate]. Qed.
Lemma digit_same' c : digit c = is_digit c.
Proof. destruct c as [[] [] [] [] [] [] [] []]; vm_compute; reflexivity. Qed.
Lemma recognise_callout plugins x d y o : d <> [] -> all_of is_digit d ->
  let l := $"<" ++ d ++ $">" in
  next_token plugins (at_ x (l ++ y) o) = Ret (Some (mkToken CalloutNumber (length x + o) (length x + length l + o) l), at_ (x ++ l) y o).
Proof.
  intros NE A l. apply next_of_scan; [reflexivity| |].
  - apply utf8_ascii. unfold l. apply Forall_app; split; [repeat constructor|]. apply Forall_app; split; [|repeat constructor].
    eapply all_ascii; [apply digit_is_ascii|exact A].
  - set (p := last (map Some x) None) in *. clearbody p. set (ls := at_line_start _). clearbody ls. unfold l.
    assert (AD : at_delimiter_line ls (($"<" ++ d ++ $">") ++ y) = None) by (cbn; rewrite orb_true_r; reflexivity).
    unfold scan. rewrite AD. cbn [app b list_ascii_of_string]. cbn [look repeats singles]. cbn [Ascii.eqb Bool.eqb].
    replace (mem "<"%char ws_bytes) with false by reflexivity. cbn iota.
    destruct d as [|c d]; [congruence|]. inversion A as [|? ? Ac Ad]; subst.
    unfold maybe_callout_number. rewrite <- app_assoc. cbn [app nth_error skipn]. rewrite digit_same', Ac, run_app.
    + replace (1 + 1 + length d - 1) with (S (length d)) by lia. cbn [nth_error]. rewrite nth_pre0. cbn [nth_error app is Ascii.eqb Bool.eqb].
      cbn [length app]. rewrite app_length. cbn [length]. rewrite !Nat.add_1_r. reflexivity.
    + eapply all_of_impl; [|exact Ad]. intros e H. rewrite digit_same'. exact H.
    + intros e r E. injection E as <- _. reflexivity.
Qed.
Lemma recognise_entity plugins x d y o : last (map Some x) None <> Some "\"%char -> d <> [] -> all_of is_digit d ->
  let l := $"&#" ++ d ++ $";" in
  next_token plugins (at_ x (l ++ y) o) = Ret (Some (mkToken Entity (length x + o) (length x + length l + o) l), at_ (x ++ l) y o).
Proof.
  intros B NE A l. apply next_of_scan; [reflexivity| |].
  - apply utf8_ascii. unfold l. apply Forall_app; split; [repeat constructor|]. apply Forall_app; split; [|repeat constructor].
    eapply all_ascii; [apply digit_is_ascii|exact A].
  - set (p := last (map Some x) None) in *. clearbody p. set (ls := at_line_start _). clearbody ls. unfold l.
    assert (AD : at_delimiter_line ls (($"&#" ++ d ++ $";") ++ y) = None) by (cbn; rewrite orb_true_r; reflexivity).
    unfold scan. rewrite AD. cbn [app b list_ascii_of_string]. cbn [look repeats singles]. cbn [Ascii.eqb Bool.eqb].
    replace (mem "&"%char ws_bytes) with false by reflexivity. cbn iota.
    destruct d as [|c d]; [congruence|]. inversion A as [|? ? Ac Ad]; subst.
    unfold maybe_entity. rewrite <- app_assoc. cbn [app nth_error]. rewrite digit_same', Ac. cbn [Ascii.eqb Bool.eqb andb].
    unfold finish_entity. cbn [skipn].
    change (c :: d ++ ";"%char :: y) with ((c :: d) ++ ";"%char :: y). rewrite run_app.
    + cbn [Nat.add nth_error app]. change (nth_error (c :: d ++ ";"%char :: y) (length (c :: d))) with (nth_error ((c :: d) ++ ";"%char :: y) (length (c :: d))).
      rewrite nth_pre0. cbn [nth_error is Ascii.eqb Bool.eqb]. replace (is p "\"%char) with false.
      2: { symmetry. destruct p as [e|]; [|reflexivity]. cbn. apply Ascii.eqb_neq. congruence. }
      replace (1 <? S (length (c :: d))) with true by reflexivity. cbn [andb].
      cbn [length]. rewrite app_length. cbn [length]. rewrite !Nat.add_1_r. reflexivity.
    + eapply all_of_impl; [|exact A]. intros e H. rewrite digit_same'. exact H.
    + intros e r E. injection E as <- _. reflexivity.
Qed.
Lemma recognise_uri plugins x s y o : In s [$"http://"; $"https://"; $"ftp://"; $"mailto://"; $"irc://"; $"file:///"] ->
  next_token plugins (at_ x (s ++ y) o) = Ret (Some (mkToken UriScheme (length x + o) (length x + length s + o) s), at_ (x ++ s) y o).
Proof.
  intro I. apply next_of_scan; [reflexivity| |].
  { cbn [In] in I. repeat (destruct I as [<-|I]; [apply is_utf8_spec; reflexivity|]). destruct I. }
  set (p := last _ _). clearbody p. set (ls := at_line_start _). clearbody ls.
  cbn [In] in I.
  repeat (destruct I as [<-|I]; [cbn [app b list_ascii_of_string]; apply scan_word; [apply in_list_not; reflexivity|destruct ls; reflexivity|reflexivity|reflexivity|reflexivity|reflexivity|]; reflexivity|]). destruct I.
Qed.
Lemma recognise_macro plugins x s c y o :
  In s [$"footnote"; $"image"; $"indexterm"; $"indexterm2"; $"anchor"; $"audio"; $"icon"; $"kbd";
        $"link"; $"pass"; $"btn"; $"menu"; $"mailto"; $"toc"; $"xref"; $"video"] ->
  c <> ":"%char -> c <> "/"%char ->
  let l := s ++ $":" in
  next_token plugins (at_ x (l ++ c :: y) o) = Ret (Some (mkToken MacroName (length x + o) (length x + length l + o) l), at_ (x ++ l) (c :: y) o).
Proof.
  intros I C D l. apply next_of_scan; [reflexivity| |].
  { unfold l. cbn [In] in I. repeat (destruct I as [<-|I]; [apply is_utf8_spec; reflexivity|]). destruct I. }
  set (p := last _ _). clearbody p. set (ls := at_line_start _). clearbody ls. unfold l. clear l.
  cbn [In] in I. apply Ascii.eqb_neq in C, D. assert (D' : Ascii.eqb "/"%char c = false) by (rewrite Ascii.eqb_sym; exact D).
  repeat (destruct I as [<-|I]; [cbn [app b list_ascii_of_string]; apply scan_word; [apply in_list_not; reflexivity|destruct ls; reflexivity|reflexivity|reflexivity|reflexivity|reflexivity|];
    unfold word; match goal with |- context [run ?f ?l] => let v := eval vm_compute in (run f l) in change (run f l) with v end;
    cbn [Nat.add firstn skipn nth_error]; unfold peek_term_delimiter, continues_uri_scheme, is; cbn [skipn nth_error];
    rewrite C; cbn [starts_with b list_ascii_of_string]; rewrite ?D'; reflexivity|]). destruct I.
Qed.
