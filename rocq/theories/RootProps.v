(** C09, C15, C16: reading through a stack of included sources. *)
From Verif Require Import Base Utf8 LexerModel LexerSpec LexerProofs RootModel RootSpec RootProofs RootStepProofs RootPullProofs RootHistProofs.

(** *** C15 *)
(** Any history of reads and pushes (at least one read between two pushes) delivers, token by token and each with the number of
    its source, what a stack of whole-file token streams delivers: an included file's tokens come in place, then its includer
    goes on where it was. *)
Theorem C15_in_place_expansion plugins s ops : utf8 s -> (forall x, In x (pushed_texts ops) -> utf8 x) -> reads_between ops ->
  (N.of_nat (length (pushed_texts ops)) < 65535)%N ->
  exists ts out, tokens plugins (S (length s)) (from_bytes s) = Ret (Some ts) /\
    perform plugins ops (new_root s) = Ret out /\ expected plugins 1 [(0, ts)] ops out.
Proof.
  intros U UP RB SZ. destruct (tokens_good plugins 0 (S (length s)) [] s) as (ts & TS & _); [lia|exact U|].
  change (at_ [] s 0) with (from_bytes s) in TS.
  destruct (history plugins ops (new_root s) [(0, ts)]) as (out & P & X).
  - apply new_inv, U.
  - reflexivity.
  - constructor; [|constructor]. split; [reflexivity|]. exists (mkSource (from_bytes s) None), (S (length s)). auto.
  - exact RB.
  - left. reflexivity.
  - unfold pushes. cbn [new_root sources length]. lia.
  - exact UP.
  - exists ts, out. auto.
Qed.
Print Assumptions C15_in_place_expansion.

(** In every reachable state reading never panics and takes the token off the front of what is unread; the end-of-input token
    comes exactly when nothing is unread. *)
Theorem C15_read_takes_the_front plugins r : reachable plugins r ->
  exists k r', next_tok plugins r = Ret (k, r') /\ unread r = k_lexeme k ++ unread r' /\
    (k_kind k = Eof <-> unread r = []) /\ (k_kind k <> Eof -> k_lexeme k <> [] /\ lexeme_of plugins (k_kind k) (k_lexeme k)).
Proof.
  intro R. destruct (next_tok_good plugins r (reachable_inv _ _ R)) as (k & r' & E & _ & [U D] & _). exists k, r'. split; [exact E|]. split; [exact U|].
  destruct D as [(A & B & C)|[A B]]; [tauto|]. split; [|auto]. split.
  - intro Q. rewrite Q in B. destruct (lexeme_not_eof _ _ B).
  - intro Q. rewrite Q in U. symmetry in U. apply app_eq_nil in U. tauto.
Qed.
Print Assumptions C15_read_takes_the_front.

(** Outside inserted text every token names its source and the exact range of its text in it. *)
Theorem C15_token_location plugins r k r' : reachable plugins r -> tmp r = None -> next_tok plugins r = Ret (k, r') -> k_kind k <> Eof ->
  exists s, nth_error (sources r) (l_src (k_loc k)) = Some s /\
    firstn (l_end (k_loc k) - l_start (k_loc k)) (skipn (l_start (k_loc k)) (src (s_lex s))) = k_lexeme k.
Proof.
  intros R ET E NE. destruct (next_tok_calm plugins r k r' (reachable_inv _ _ R) ET E NE) as (_ & _ & (s & A & B & C)).
  exists s. rewrite B. cbn [l_src l_start l_end]. split; [exact A|]. replace (pos (s_lex s) + length (k_lexeme k) - pos (s_lex s)) with (length (k_lexeme k)) by lia.
  change (skipn (pos (s_lex s)) (src (s_lex s))) with (rest (s_lex s)). rewrite C, firstn_app, Nat.sub_diag, firstn_O, app_nil_r. apply firstn_all.
Qed.
Print Assumptions C15_token_location.

(** Inserted text (an attribute value, an embedded line, an error message) is read from its own beginning, before any source; its
    tokens are located where the insertion said: all at one place, or at their distance from a given start. *)
Theorem C15_inserted_token_location plugins r l bl k r' : reachable plugins r -> tmp r = Some (l, bl) -> next_tok plugins r = Ret (k, r') ->
  let n := length (k_lexeme k) in
  n > 0 /\ firstn n (skipn (pos l) (src l)) = k_lexeme k /\
  k_loc k = match bl with
            | Repeat x => x
            | Offset o => mkLoc (o + pos l) (o + pos l + n) 0
            | From x => mkLoc (l_start x + pos l) (l_start x + pos l + n) (l_src x)
            end.
Proof.
  intros R T E n. pose proof (i_tmp _ (reachable_inv _ _ R)) as G. rewrite T in G. destruct G as [G NE]. unfold next_tok in E. rewrite T in E.
  destruct (next_more [] l G NE) as (kd & s & z & N & RS & NS & _). rewrite N in E. injection E as <- _. subst n.
  cbn [relocate k_lexeme k_loc t_lexeme t_start t_end t_kind]. split; [destruct s; [contradiction|cbn; lia]|]. split.
  - change (skipn (pos l) (src l)) with (rest l). rewrite RS, firstn_app, Nat.sub_diag, firstn_O, app_nil_r. apply firstn_all.
  - destruct bl; [reflexivity| |]; f_equal; lia.
Qed.
Print Assumptions C15_inserted_token_location.

(** Pushing puts the file, ended by a newline, in front of everything unread and loses nothing. *)
Theorem C15_push_in_front plugins r s d : reachable plugins r -> tmp r = None -> next_idx r = None -> utf8 s ->
  (N.of_nat (length (sources r)) < 65535)%N ->
  exists r', push_source s d r = Ret r' /\ unread r' = whole_lines s ++ unread r.
Proof.
  intros R ET EN U SZ. destruct (push_good s d r (reachable_inv _ _ R) EN SZ U) as (r' & E & _ & _ & _ & _ & _ & T & _ & X & _).
  exists r'. split; [exact E|]. rewrite !unread_text, T, ET. exact X.
Qed.
Print Assumptions C15_push_in_front.

(** A line read from the sources is the text up to a line break (or to where lookahead sees nothing), and is removed with the break. *)
Theorem C15_read_line plugins r : reachable plugins r -> tmp r = None -> (forall p, In p plugins -> ~ In newline p) ->
  (read_line plugins r = Ret (None, r) /\ is_eof r = Ret true) \/
  exists ks r' nl, read_line plugins r = Ret (Some ks, r') /\ unread r = concat (map k_lexeme ks) ++ nl ++ unread r' /\
    In nl [[]; [newline]; [return_]; [return_; newline]] /\ (nl = [] -> is_eof r' = Ret true) /\
    (forall k, In k ks -> k_kind k <> Newline -> ~ In newline (k_lexeme k)).
Proof.
  intros R ET PL. destruct (read_line_good plugins r (reachable_inv _ _ R) ET) as [[A B]|(ks & r' & nl & A & _ & _ & _ & B & C & D & F)].
  - left. split; [exact A|]. unfold is_eof. rewrite B. reflexivity.
  - right. exists ks, r', nl. repeat split; auto.
    + intro Q. unfold is_eof. rewrite (D Q). reflexivity.
    + intros k I K. rewrite Forall_forall in F. destruct (F k I) as (_ & _ & L). exact (lexeme_no_newline plugins _ _ PL L K).
Qed.
Print Assumptions C15_read_line.

(** Two pushes without a read between them lose the first file. *)
Theorem C15_double_push_refuted : exists r r1 r2, reachable [] r /\ push_source ($"first") None r = Ret r1 /\
  push_source ($"second") None r1 = Ret r2 /\ unread r2 <> $"second" ++ [newline] ++ $"first" ++ [newline] ++ unread r /\
  unread r2 = $"second" ++ [newline] ++ unread r.
Proof.
  exists (new_root ($"main")). do 2 eexists. split; [apply R_new, is_utf8_spec; reflexivity|]. split; [vm_compute; reflexivity|]. split; [vm_compute; reflexivity|].
  split; [vm_compute; discriminate|vm_compute; reflexivity].
Qed.
Print Assumptions C15_double_push_refuted.

(** Tokens of inserted text (the embedded line of a conditional directive) always name the primary source, even when the
    directive stands in an included file. *)
Theorem C15_inserted_text_names_primary_refuted : exists r k r', reachable [] r /\ idx r = 1 /\
  next_tok [] (set_tmp_buf ($"embedded") (Offset 3) r) = Ret (k, r') /\ l_src (k_loc k) = 0.
Proof.
  assert (R1 : exists r1, push_source ($"ifdef::a[embedded]") None (new_root ($"main")) = Ret r1 /\ reachable [] r1).
  { eexists. split; [vm_compute; reflexivity|]. eapply R_push with (r := new_root ($"main")) (s := $"ifdef::a[embedded]") (d := None);
      [apply R_new, is_utf8_spec; reflexivity|reflexivity|reflexivity|apply is_utf8_spec; reflexivity|vm_compute; reflexivity]. }
  destruct R1 as (r1 & E1 & R1).
  assert (R2 : exists o r2, read_line [] r1 = Ret (o, r2)) by (vm_compute in E1; injection E1 as <-; do 2 eexists; vm_compute; reflexivity).
  destruct R2 as (o & r2 & E2). exists r2. vm_compute in E1. injection E1 as <-. pose proof (read_line_reachable _ _ _ _ R1 E2) as R2.
  vm_compute in E2. injection E2 as _ <-. do 2 eexists. split; [exact R2|]. split; [reflexivity|]. split; vm_compute; reflexivity.
Qed.
Print Assumptions C15_inserted_text_names_primary_refuted.

(** The 65536th source cannot be pushed. *)
Theorem C15_source_limit_refuted r s d : N.of_nat (length (sources r)) = 65535%N -> push_source s d r = Panic.
Proof. exact (push_full s d r). Qed.
Print Assumptions C15_source_limit_refuted.

(** *** C16 *)
(** Lookahead never panics, and a byte it shows is the next unread byte. *)
Theorem C16_peek_shows_next_byte plugins r : reachable plugins r ->
  exists o, peek r = Ret o /\ forall c, o = Some c -> exists t, unread r = c :: t.
Proof. intro R. destruct (peek_good r (reachable_inv _ _ R)) as (o & E & S & _). exists o. auto. Qed.
Print Assumptions C16_peek_shows_next_byte.

(** At the end of everything, the end is reported. *)
Theorem C16_end_is_reported plugins r : reachable plugins r -> unread r = [] -> is_eof r = Ret true.
Proof.
  intros R U. destruct (peek_good r (reachable_inv _ _ R)) as (o & E & S & _). unfold is_eof. rewrite E. destruct o as [c|]; [|reflexivity].
  destruct (S c eq_refl) as (t & Q). congruence.
Qed.
Print Assumptions C16_end_is_reported.

(** The converse holds when at most one source encloses the current one, or right after blank lines were skipped; missing for the full
    claim: deeper nesting (see the refuted theorem below). *)
Theorem C16_eof_only_at_end_partial plugins r : reachable plugins r -> length (live r) <= 2 -> is_eof r = Ret true -> unread r = [].
Proof.
  intros R L E. destruct (peek_good r (reachable_inv _ _ R)) as (o & E' & _ & N). unfold is_eof in E. rewrite E' in E. destruct o; [discriminate|].
  destruct (N eq_refl) as (T & X & A & B). unfold unread, live in *. rewrite T, X in *. cbn [app length] in *.
  destruct (stack r) as [|j [|j' st]]; cbn in L; [cbn; rewrite A; reflexivity| |lia]. cbn. rewrite A, (B j eq_refl). reflexivity.
Qed.
Print Assumptions C16_eof_only_at_end_partial.
Theorem C16_eof_exact_after_blank_lines plugins r r' : reachable plugins r -> tmp r = None -> consume_empty_lines r = Ret r' ->
  (is_eof r' = Ret true <-> unread r' = []) /\ exists bl, Forall (fun c => In c [newline; return_]) bl /\ unread r = bl ++ unread r'.
Proof.
  intros R ET E. pose proof (reachable_inv _ _ R) as I. destruct (consume_good r I) as (r'' & bl & E' & I' & _ & BL & T & X & U & _ & D).
  rewrite E in E'. injection E' as <-. split.
  - split.
    + intro Q. apply exact_after_blank; auto; [congruence|]. unfold is_eof in Q. destruct (peek r') as [[|]|]; try discriminate. reflexivity.
    + apply (C16_end_is_reported plugins). eapply R_blank; eauto.
  - exists bl. split.
    + eapply Forall_impl; [|exact BL]. intros c H. unfold blank_byte, mem in H. cbn in H. apply orb_prop in H as [H|H]; [apply Ascii.eqb_eq in H; subst; left; reflexivity|].
      rewrite orb_false_r in H. apply Ascii.eqb_eq in H. subst. right. left. reflexivity.
    + rewrite !unread_text, T, ET. exact U.
Qed.
Print Assumptions C16_eof_exact_after_blank_lines.

(** The full claim is false: when an included file ends with an include directive and that file is exhausted, the end is
    reported although the outermost document goes on, so the line behind the include is not read as part of the same paragraph. *)
Definition after_nested_include : outcome root :=
  let line r := match read_line [] r with Ret (_, r') => Ret r' | Panic => Panic end in
  let andthen x f := match x with Ret r => f r | Panic => Panic end in
  andthen (andthen (andthen (andthen (andthen (Ret (new_root ($"include::a[]" ++ [newline] ++ $"world")))
    line) (push_source ($"include::b[]") None)) line) (push_source ($"hello") None)) line.
Theorem C16_early_end_refuted : exists r, after_nested_include = Ret r /\ reachable [] r /\ is_eof r = Ret true /\
  read_line [] r = Ret (None, r) /\ unread r = $"world".
Proof.
  unfold after_nested_include.
  assert (R0 : reachable [] (new_root ($"include::a[]" ++ [newline] ++ $"world"))) by (apply R_new, is_utf8_spec; reflexivity).
  assert (L : forall r o r', reachable [] r -> read_line [] r = Ret (o, r') -> reachable [] r') by (intros; eapply read_line_reachable; eauto).
  destruct (read_line [] (new_root ($"include::a[]" ++ [newline] ++ $"world"))) as [[o1 r1]|] eqn:E1; [|exfalso; vm_compute in E1; discriminate].
  pose proof (L _ _ _ R0 E1) as R1. cbv beta iota zeta.
  assert (P2 : exists r2, push_source ($"include::b[]") None r1 = Ret r2 /\ reachable [] r2).
  { vm_compute in E1. injection E1 as <- <-. eexists. split; [vm_compute; reflexivity|].
    eapply R_push with (s := $"include::b[]") (d := None); [exact R1|reflexivity|reflexivity| |vm_compute; reflexivity]. apply is_utf8_spec. reflexivity. }
  destruct P2 as (r2 & E2 & R2). rewrite E2. cbv beta iota zeta.
  destruct (read_line [] r2) as [[o3 r3]|] eqn:E3.
  2: { exfalso. vm_compute in E1. injection E1 as <- <-. vm_compute in E2. injection E2 as <-. vm_compute in E3. discriminate. }
  pose proof (L _ _ _ R2 E3) as R3. cbv beta iota zeta.
  assert (P4 : exists r4, push_source ($"hello") None r3 = Ret r4 /\ reachable [] r4).
  { vm_compute in E1. injection E1 as <- <-. vm_compute in E2. injection E2 as <-. vm_compute in E3. injection E3 as <- <-. eexists. split; [vm_compute; reflexivity|].
    eapply R_push with (s := $"hello") (d := None); [exact R3|reflexivity|reflexivity| |vm_compute; reflexivity]. apply is_utf8_spec. reflexivity. }
  destruct P4 as (r4 & E4 & R4). rewrite E4. cbv beta iota zeta.
  destruct (read_line [] r4) as [[o5 r5]|] eqn:E5.
  2: { exfalso. vm_compute in E1. injection E1 as <- <-. vm_compute in E2. injection E2 as <-. vm_compute in E3. injection E3 as <- <-.
       vm_compute in E4. injection E4 as <-. vm_compute in E5. discriminate. }
  pose proof (L _ _ _ R4 E5) as R5. exists r5. split; [reflexivity|]. split; [exact R5|].
  vm_compute in E1. injection E1 as <- <-. vm_compute in E2. injection E2 as <-. vm_compute in E3. injection E3 as <- <-.
  vm_compute in E4. injection E4 as <-. vm_compute in E5. injection E5 as <- <-. vm_compute. auto.
Qed.
Print Assumptions C16_early_end_refuted.

(** *** C09 *)
(** However the files include each other, at most [limit] documents enclose the one being read. *)
Theorem C09_nesting_bounded checked limit plugins r : pulled checked limit plugins r -> nesting r <= limit.
Proof. intro P. destruct (pulled_good _ _ _ _ P) as [I S]. exact (shallow_bound limit r I S). Qed.
Print Assumptions C09_nesting_bounded.

(** For every world of files (any answer to any line, cyclic or not) pulling lines comes to an end with everything read.
    Overflow checks off and at most 65534 lines of includes: otherwise it may panic instead (second theorem). *)
Theorem C09_pulling_terminates limit w plugins s blank : utf8 s -> utf8_world w ->
  (forall seen, (65535 <= N.of_nat (length seen))%N -> rp_include (w seen) = None) ->
  exists fuel seen r, pull false limit w plugins fuel blank [] (new_root s) = Ret (Some (seen, r)) /\ unread r = [].
Proof.
  intros U UW SZ. assert (F16 : fits16 (new_root s)) by (unfold fits16; cbn; lia). destruct (pull_ends false limit w plugins UW (limit - 1) (W (low limit) (new_root s)) (W (high limit) (new_root s)) blank (new_root s) [] (new_inv s U) eq_refl F16 (le_n 1) (le_n _) (le_n _) (le_n _))
    as (fuel & [(seen & r & E & _ & X)|[E B]]).
  - exists fuel, seen, r. auto.
  - destruct B as [B|(sn & x & L & Q)]; [discriminate|]. rewrite SZ in Q by exact L. discriminate.
Qed.
Print Assumptions C09_pulling_terminates.
Theorem C09_pulling_terminates_or_panics checked limit w plugins s blank : utf8 s -> utf8_world w ->
  exists fuel, pull checked limit w plugins fuel blank [] (new_root s) <> Ret None.
Proof.
  intros U UW. assert (F16 : fits16 (new_root s)) by (unfold fits16; cbn; lia). destruct (pull_ends checked limit w plugins UW (limit - 1) (W (low limit) (new_root s)) (W (high limit) (new_root s)) blank (new_root s) [] (new_inv s U) eq_refl F16 (le_n 1) (le_n _) (le_n _) (le_n _))
    as (fuel & [(seen & r & E & _ & X)|[E B]]); try (exists fuel; rewrite E; discriminate).
Qed.
Print Assumptions C09_pulling_terminates_or_panics.

(** The limit counts files opened, not nesting: with max-include-depth 2, in the second of two sibling files (nested once) no
    file can be included, so a directive is refused at nesting depth 1. *)
Theorem C09_siblings_use_up_depth_refuted : exists r, pulled false 2 [] r /\ nesting r = 1 /\ sources r <> [] /\ next_idx r = None /\
  try_include false 2 ($"text") None r = Ret r.
Proof.
  destruct (play false 2 [ALine; AInclude ($"one") None; ALine; ALine; AInclude ($"include::x[]" ++ [newline] ++ $"two") None; ALine]
    (new_root ($"include::a[]" ++ [newline] ++ $"include::b[]" ++ [newline] ++ $"end"))) as [r|] eqn:E; [|exfalso; vm_compute in E; discriminate].
  exists r. split. { eapply play_pulled; [|apply P_new|exact E]; [vm_compute; reflexivity|apply is_utf8_spec; reflexivity]. }
  vm_compute in E. injection E as <-. vm_compute. repeat split; congruence.
Qed.
Print Assumptions C09_siblings_use_up_depth_refuted.

(** The depth= attribute of a file that has been read to its end still limits its later siblings. *)
Theorem C09_depth_attribute_leaks_refuted : exists r, pulled false 64 [] r /\ nesting r = 1 /\ try_include false 64 ($"text") None r = Ret r.
Proof.
  destruct (play false 64 [ALine; AInclude ($"one") (Some 0); ALine; ALine; AInclude ($"include::x[]" ++ [newline] ++ $"two") None; ALine]
    (new_root ($"include::a[depth=0]" ++ [newline] ++ $"include::b[]" ++ [newline] ++ $"end"))) as [r|] eqn:E; [|exfalso; vm_compute in E; discriminate].
  exists r. split. { eapply play_pulled; [|apply P_new|exact E]; [vm_compute; reflexivity|apply is_utf8_spec; reflexivity]. }
  vm_compute in E. injection E as <-. vm_compute. repeat split; congruence.
Qed.
Print Assumptions C09_depth_attribute_leaks_refuted.

(** The depth= attribute that counts is the one of the file opened last among those that carry one: with [d] levels allowed below
    the file opened as number [length a], an include is carried out exactly while the file being read has a smaller number than
    [length a + d] (and than the job's limit); otherwise the document is left as it was. *)
Theorem C09_latest_depth_attribute_counts checked limit s md r a x z d :
  sources r = a ++ x :: z -> s_max x = Some d -> Forall (fun y => s_max y = None) z -> (N.of_nat (length a + d) <= 65535)%N ->
  (idx r < Nat.min (length a + d) limit -> try_include checked limit s md r = push_source s md r) /\
  (Nat.min (length a + d) limit <= idx r -> try_include checked limit s md r = Ret r).
Proof.
  intros ES EX EZ B. unfold try_include, exceeded, max_include_depth. rewrite ES.
  assert (L : forall z i acc, Forall (fun y => s_max y = None) z -> last_limit i z acc = acc).
  { clear. induction z as [|y z IH]; intros i acc F; [reflexivity|]. inversion F as [|? ? H F']. subst. cbn [last_limit]. rewrite H. apply IH, F'. }
  assert (K : forall a i acc, last_limit i (a ++ x :: z) acc = Some (d, i + length a)).
  { clear - L EX EZ. induction a as [|y a IH]; intros i acc; cbn [app last_limit length].
    - rewrite EX, L by exact EZ. rewrite Nat.add_0_r. reflexivity.
    - rewrite IH. do 2 f_equal. lia. }
  rewrite K. cbn [Nat.add]. rewrite (Nat.add_comm d). destruct (65535 <? N.of_nat (length a + d))%N eqn:Q; [apply N.ltb_lt in Q; lia|]. rewrite andb_false_r.
  assert (T : to_u16 (length a + d) = length a + d). { unfold to_u16. rewrite N.mod_small by lia. lia. }
  rewrite T. split; intro H.
  - destruct (Nat.min (length a + d) limit <? idx r + 1) eqn:C; [apply Nat.ltb_lt in C; lia|reflexivity].
  - destruct (Nat.min (length a + d) limit <? idx r + 1) eqn:C; [reflexivity|apply Nat.ltb_ge in C; lia].
Qed.
Print Assumptions C09_latest_depth_attribute_counts.

(** With overflow checks on, depth=65535 on an include makes the next directive panic. *)
Theorem C09_depth_overflow_refuted d : (65535 <= N.of_nat d)%N ->
  exists r, pulled true 64 [] r /\ nesting r = 1 /\ try_include true 64 ($"text") None r = Panic.
Proof.
  intro D.
  destruct (play true 64 [ALine; AInclude ($"include::x[]" ++ [newline] ++ $"two") (Some d); ALine] (new_root ($"include::a[depth=65535]"))) as [r|] eqn:E;
    [|exfalso; vm_compute in E; discriminate].
  exists r. split. { eapply play_pulled; [|apply P_new|exact E]; [vm_compute; reflexivity|apply is_utf8_spec; reflexivity]. }
  vm_compute in E. injection E as <-. split; [vm_compute; reflexivity|].
  unfold try_include, exceeded, max_include_depth. cbn [sources last_limit s_max]. replace ((65535 <? N.of_nat (d + 1))%N) with true by (symmetry; apply N.ltb_lt; lia). reflexivity.
Qed.
Print Assumptions C09_depth_overflow_refuted.

(** *** Concrete cases *)
Definition demo_main : bytes := $"before" ++ [newline] ++ $"include::a[]" ++ [newline] ++ $"after".
(** A file that includes itself: every line that says so is answered with the same text. *)
Definition self_world (text : bytes) : world := fun seen =>
  mkReply (match last seen [] with
           | k :: _ => if bytes_eqb (k_lexeme k) ($"include::") then Some (text, None) else None
           | [] => None
           end) false.
Definition lines_of (o : outcome (option (list (list rtok) * root))) : option (list bytes) :=
  match o with Ret (Some (ls, _)) => Some (map (fun l => concat (map k_lexeme l)) ls) | _ => None end.
Example C09_ex_self_include : lines_of (pull false 3 (self_world demo_main) [] 40 false [] (new_root demo_main)) =
  Some (concat (repeat [$"before"; $"include::a[]"] 4) ++ repeat ($"after") 4).
Proof. vm_compute. reflexivity. Qed.
Example C09_ex_world : utf8_world (self_world demo_main).
Proof.
  intros seen s d. unfold self_world. cbn [rp_include]. destruct (last seen []); [discriminate|]. destruct (bytes_eqb _ _); [|discriminate].
  intro E. injection E as <- _. apply is_utf8_spec. vm_compute. reflexivity.
Qed.
Example C15_ex_history : match perform [] [Read; Read; Push ($"in" ++ [newline]) None; Read; Read; Read; Read] (new_root ($"a" ++ [newline] ++ $"b")) with
  | Ret ks => map (option_map (fun k => (fst k, t_lexeme (snd k)))) ks =
      [Some (0, $"a"); Some (0, [newline]); Some (1, $"in"); Some (1, [newline]); Some (0, $"b"); None]
  | Panic => False
  end.
Proof. vm_compute. reflexivity. Qed.
Example C15_ex_reachable : reachable [] (new_root demo_main) /\ tmp (new_root demo_main) = None /\ unread (new_root demo_main) = demo_main.
Proof. split; [apply R_new, is_utf8_spec; vm_compute; reflexivity|]. split; vm_compute; reflexivity. Qed.
Example C09_ex_depth : exists r a x z, pulled false 64 [] r /\ sources r = a ++ x :: z /\ s_max x = Some 1 /\ length a = 1 /\ length z = 0 /\
  idx r < Nat.min (length a + 1) 64.
Proof.
  destruct (play false 64 [ALine; AInclude ($"include::x[]" ++ [newline] ++ $"two") (Some 1); ALine] (new_root ($"include::a[depth=1]"))) as [r|] eqn:E;
    [|exfalso; vm_compute in E; discriminate].
  exists r. assert (P : pulled false 64 [] r) by (eapply play_pulled; [|apply P_new|exact E]; [vm_compute; reflexivity|apply is_utf8_spec; reflexivity]).
  vm_compute in E. injection E as <-. eexists [_], _, []. split; [exact P|]. split; [reflexivity|]. split; [reflexivity|]. split; [reflexivity|]. split; [reflexivity|]. cbn. lia.
Qed.
