(** C17: reported line numbers, columns and line texts. C40: diagnostics. *)
From Verif Require Import Base Utf8 Text LexerModel LexerSpec LexerProofs RootModel RootSpec RootProofs RootStepProofs LocModel LocSpec LocProofs.

(** Every position up to the end of a text lies on exactly one line. *)
Theorem C17_every_position_on_one_line s p : p <= length s ->
  exists be li af, on_line s p be li af /\ forall be' li' af', on_line s p be' li' af' -> (be', li', af') = (be, li, af).
Proof.
  intro L. destruct (has_line s p L) as (be & li & af & O). exists be, li, af. split; [exact O|]. intros be' li' af' O'.
  destruct (on_unique _ _ _ _ _ _ _ _ O O') as (-> & -> & ->). reflexivity.
Qed.
Print Assumptions C17_every_position_on_one_line.

(** The line number is one plus the newlines before the line, the column the distance from the line's start. [offset l] is where
    the lexer's text begins in the positions it is asked about (0, except for table cells). *)
Theorem C17_line_number l p be li af : on_line (src l) p be li af ->
  line_number_with_offset l (p + offset l) = Ret (1 + newlines be, p - length be).
Proof.
  intro O. unfold line_number_with_offset. rewrite (proj2 (Nat.ltb_ge _ _)) by lia. rewrite Nat.add_sub. apply (line_number_good _ _ _ _ _ O).
Qed.
Print Assumptions C17_line_number.

(** The line text is the line without trailing white space (when a carriage return only ends the line). *)
Theorem C17_line_text l p be body cr af : utf8 (src l) -> on_line (src l) p be (body ++ cr) af ->
  ~ In return_ body -> In cr [[]; [return_]] -> exists t, line_of l (p + offset l) = Ret t /\ right_trimmed (body ++ cr) t.
Proof.
  intros U O NB C. destruct (on_part _ _ _ _ _ O) as (part & r & E & P).
  rewrite E in O. rewrite (line_of_good l (p + offset l) be part r af U); rewrite ?Nat.add_sub; auto; [|lia].
  eexists. split; [reflexivity|]. rewrite E.
  assert (NL : ~ In newline (part ++ r)) by (destruct O; assumption).
  assert (X : r = upto_cr r \/ (r = upto_cr r ++ [return_])).
  { unfold upto_cr. destruct (run_split (fun c => negb (mem c [CR; LF])) r) as (u & v & -> & L & F & NC). rewrite <- L, firstn_app_len.
    destruct v as [|c v]; [left; rewrite app_nil_r; reflexivity|]. right. f_equal. specialize (NC c v eq_refl). cbv beta in NC.
    apply negb_false_iff in NC. unfold mem in NC. cbn [existsb] in NC. rewrite orb_false_r in NC. apply orb_prop in NC as [Q|Q]; apply Ascii.eqb_eq in Q; subst c.
    - assert (I : In return_ (body ++ cr)) by (rewrite E; apply in_or_app; right; apply in_or_app; right; left; reflexivity).
      destruct C as [<-|[<-|[]]]; [rewrite app_nil_r in I; contradiction|].
      destruct v as [|c v] using rev_ind; [reflexivity|exfalso]. clear IHv.
      assert (E2 : body ++ [return_] = (part ++ u ++ CR :: v) ++ [c]) by (rewrite E, <- !app_assoc; reflexivity).
      apply app_inj_tail in E2 as [-> _]. apply NB. apply in_or_app. right. apply in_or_app. right. left. reflexivity.
    - exfalso. apply NL. apply in_or_app. right. apply in_or_app. right. left. reflexivity. }
  destruct X as [<-|X]; [apply trim_end_spec|]. rewrite X at 1. rewrite app_assoc. destruct (trim_end_spec (part ++ upto_cr r)) as (w & E1 & F & T).
  exists (w ++ [return_]). split; [rewrite E1 at 1; rewrite <- app_assoc; reflexivity|]. split; [|exact T]. apply Forall_app. split; [exact F|]. constructor; [|constructor].
  right. right. right. right. left. reflexivity.
Qed.
Print Assumptions C17_line_text.
(** A lone carriage return ends the reported text early although it does not end the line. *)
Theorem C17_lone_return_refuted : let s := $"ab" ++ [return_] ++ $"cd" in
  on_line s 0 [] s [] /\ line_of (from_bytes s) 0 = Ret ($"ab") /\ line_number_with_offset (from_bytes s) 3 = Ret (1, 3).
Proof.
  cbv zeta. split; [|split; vm_compute; reflexivity]. constructor; cbn [length]; auto; try lia.
  intro H. vm_compute in H. repeat destruct H as [H|H]; try discriminate; contradiction.
Qed.
Print Assumptions C17_lone_return_refuted.

(** Up to the end of a text nothing panics; beyond the end or before the offset everything does. *)
Theorem C17_panics_exactly_outside l p : utf8 (src l) ->
  (offset l <= p <= length (src l) + offset l ->
     (exists x, line_number_with_offset l p = Ret x) /\ exists t, line_of l p = Ret t) /\
  (p < offset l \/ length (src l) + offset l < p -> line_number_with_offset l p = Panic /\ line_of l p = Panic).
Proof.
  intro U. split.
  - intro L. destruct (has_line (src l) (p - offset l)) as (be & li & af & O); [lia|]. split.
    + exists (1 + newlines be, p - offset l - length be). rewrite <- (C17_line_number l _ _ _ _ O). f_equal. lia.
    + destruct (on_part _ _ _ _ _ O) as (part & r & E & P). rewrite E in O. rewrite (line_of_good l p be part r af U) by (auto; lia). eexists. reflexivity.
  - unfold line_number_with_offset, line_of. intros [L|L].
    + rewrite (proj2 (Nat.ltb_lt _ _) L). auto.
    + rewrite (proj2 (Nat.ltb_ge _ _)) by lia. rewrite count_past, back_past by lia. auto.
Qed.
Print Assumptions C17_panics_exactly_outside.

(** Different positions have different line numbers or columns. *)
Theorem C17_positions_distinct s p q : p <= length s -> q <= length s ->
  line_number_with_offset (from_bytes s) p = line_number_with_offset (from_bytes s) q -> p = q.
Proof.
  intros Lp Lq. unfold line_number_with_offset. cbn [from_bytes offset src]. rewrite !(proj2 (Nat.ltb_ge _ 0)) by lia. rewrite !Nat.sub_0_r. apply count_injective; assumption.
Qed.
Print Assumptions C17_positions_distinct.

(** The line with a number is the raw line with that number, and the raw lines are the whole text. *)
Theorem C17_raw_lines s p be li af n col : on_line s p be li af -> li <> [] \/ af <> [] ->
  line_number_with_offset (from_bytes s) p = Ret (n, col) -> nth_error (raw_lines s) (n - 1) = Some li.
Proof.
  intros O NE. rewrite <- (Nat.add_0_r p). change 0 with (offset (from_bytes s)) at 1. rewrite (C17_line_number (from_bytes s) _ _ _ _ O). intro E. injection E as <- _.
  cbn [Nat.add Nat.sub]. rewrite Nat.sub_0_r. apply (raw_nth _ _ _ _ _ O NE).
Qed.
Print Assumptions C17_raw_lines.
Theorem C17_raw_lines_whole s : concat (map (fun l => l ++ [newline]) (raw_lines s)) = match s with [] => [] | _ => whole_lines s end.
Proof.
  unfold raw_lines. rewrite raw_concat_from by auto. cbn [rev app]. unfold whole_lines. destruct s as [|c s]; [reflexivity|].
  destruct (last (map Some (c :: s)) None) as [d|] eqn:D.
  - assert (X : exists y, c :: s = y ++ [d]).
    { clear - D. revert c D. induction s as [|x s IH]; intros c D; [injection D as ->; exists []; reflexivity|]. destruct (IH x D) as (y & E). exists (c :: y). rewrite E. reflexivity. }
    destruct X as (y & E). rewrite E. replace (ends_with (y ++ [d]) [newline]) with (Ascii.eqb d LF); [destruct (Ascii.eqb d LF); reflexivity|].
    unfold ends_with. rewrite rev_app_distr. cbn [rev app starts_with]. rewrite Ascii.eqb_sym. destruct (Ascii.eqb LF d) eqn:Q; unfold byte_eqb; change newline with LF; rewrite Q; reflexivity.
  - exfalso. clear - D. revert c D. induction s as [|x s IH]; intros c D; [discriminate|]. exact (IH x D).
Qed.
Print Assumptions C17_raw_lines_whole.

(** A table cell's own parser counts lines from the cell's start; adding the lines before the cell gives the line in the document. *)
Theorem C17_cell_lines a cell z q n c n0 c0 : q <= length cell ->
  line_number_with_offset (mkLexer cell 0 (length a)) (length a + q) = Ret (n, c) ->
  line_number_with_offset (from_bytes (a ++ cell ++ z)) (length a) = Ret (n0, c0) ->
  line_number_with_offset (from_bytes (a ++ cell ++ z)) (length a + q) = Ret (n + (n0 - 1), if n =? 1 then c + c0 else c).
Proof.
  intros L. unfold line_number_with_offset. cbn [from_bytes offset src]. rewrite !(proj2 (Nat.ltb_ge _ 0)) by lia. rewrite (proj2 (Nat.ltb_ge _ _)) by lia.
  rewrite !Nat.sub_0_r. replace (length a + q - length a) with q by lia. intros H H0.
  assert (H1 : count_lines (length a) a 1 0 = Ret (n0, c0)).
  { rewrite <- H0. rewrite <- (app_nil_r a) at 2. rewrite <- (Nat.add_0_r (length a)). destruct (count_lines (length a) a 1 0) as [[k c']|] eqn:E.
    - rewrite !(count_from _ _ _ _ _ _ _ E). destruct (cell ++ z); reflexivity.
    - exfalso. rewrite tck_same in E by lia. discriminate. }
  rewrite (count_from _ _ _ _ _ _ _ H1).
  assert (H2 : count_lines q (cell ++ z) 1 0 = Ret (n, c)).
  { rewrite <- H. rewrite !tck_same by (rewrite ?app_length; lia). f_equal. apply tck_app, L. }
  assert (N1 : 1 <= n0) by (rewrite tck_same in H1 by lia; injection H1 as H1; pose proof (tck_mono (length a) a 1 0) as Q; rewrite H1 in Q; exact Q).
  destruct (count_shift _ _ _ _ _ _ H2 (n0 - 1) c0) as (c' & E & A & B). cbn [Nat.add] in E. replace (S (n0 - 1)) with n0 in E by lia. rewrite E. f_equal. f_equal.
  destruct (n =? 1) eqn:Q; [apply Nat.eqb_eq in Q; auto|apply Nat.eqb_neq in Q; auto].
Qed.
Print Assumptions C17_cell_lines.

(** The technology-compatibility adapter counts the same, and stops at the end of the text. *)
Theorem C17_adapter_agrees s p : (p <= length s -> line_number_with_offset (from_bytes s) p = Ret (from_pos p s)) /\
  (length s <= p -> from_pos p s = from_pos (length s) s).
Proof.
  split; intro L.
  - unfold line_number_with_offset. cbn [from_bytes offset src]. rewrite (proj2 (Nat.ltb_ge _ 0)) by lia. rewrite Nat.sub_0_r. apply tck_same, L.
  - apply tck_past, L.
Qed.
Print Assumptions C17_adapter_agrees.
(** Its spans count columns from one, last column included. *)
Theorem C17_adapter_span s p q be li af : on_line s p be li af -> p < q -> q <= length be + length li ->
  tck_span p q s = ((1 + newlines be, p - length be + 1), (1 + newlines be, q - length be)).
Proof.
  intros O L H. assert (O2 : on_line s q be li af) by (destruct O; constructor; auto; lia). assert (LS : length be + length li <= length s) by (destruct O as [-> _ _ _ _ _]; rewrite !app_length; lia).
  pose proof (line_number_good _ _ _ _ _ O) as E1. pose proof (line_number_good _ _ _ _ _ O2) as E2. rewrite tck_same in E1, E2 by lia.
  unfold tck_span, from_pos. injection E1 as E1. injection E2 as E2. rewrite E1, E2. f_equal. f_equal. lia.
Qed.
Print Assumptions C17_adapter_span.

(** *** C40 *)
(** Lenient parsing always succeeds and reports every problem, in order; strict parsing fails with exactly the first. *)
Theorem C40_lenient_reports_all_in_order p : parse_result false p = inl (reported p).
Proof. unfold parse_result. rewrite run_lenient. reflexivity. Qed.
Print Assumptions C40_lenient_reports_all_in_order.
Theorem C40_strict_stops_at_first p : parse_result true p = match reported p with [] => inl [] | d :: _ => inr [d] end.
Proof.
  unfold parse_result. pose proof (run_strict p []) as H. destruct (reported p) as [|d ds]; [rewrite H; reflexivity|]. destruct H as (e & ->). reflexivity.
Qed.
Print Assumptions C40_strict_stops_at_first.

(** A problem located at a piece of a line underlines exactly that piece of the reported line, with the right number and source. *)
Theorem C40_underlines_the_piece r msg x s be li af : nth_error (sources r) (l_src x) = Some s -> offset (s_lex s) = 0 -> utf8 (src (s_lex s)) ->
  on_line (src (s_lex s)) (l_start x) be li af -> ~ In return_ li ->
  (exists t, right_trimmed li t /\ l_end x <= length be + length t) -> l_start x <= l_end x ->
  exists d, err_at r msg x = Ret d /\ d_line_num d = 1 + newlines be /\ right_trimmed li (d_line d) /\ d_src d = l_src x /\ d_msg d = msg /\
    firstn (d_width d) (skipn (d_start d) (d_line d)) = firstn (l_end x - l_start x) (skipn (l_start x) (src (s_lex s))) /\
    d_width d = l_end x - l_start x.
Proof.
  intros E O0 U O NR (t & T & LE) L. unfold err_at, located_diag, root_line_number, root_line_of. rewrite E.
  pose proof (C17_line_number _ _ _ _ _ O) as N. rewrite O0, Nat.add_0_r in N. rewrite N.
  destruct (C17_line_text (s_lex s) (l_start x) be li [] af U) as (t' & T1 & T2); rewrite ?app_nil_r; auto; [left; reflexivity|]. rewrite O0, Nat.add_0_r in T1. rewrite T1.
  rewrite app_nil_r in T2. pose proof (trimmed_unique _ _ _ T T2) as <-. eexists. split; [reflexivity|]. cbn [d_line_num d_line d_src d_msg d_width d_start].
  repeat split; auto. destruct T as (w & EW & _). destruct O as [ES LO HI _ _ _]. rewrite ES, EW, skipn_app, (skipn_all2 be) by exact LO. cbn [app].
  set (i := l_start x - length be). set (n := l_end x - l_start x).
  assert (G : forall z, firstn n (skipn i (t ++ z)) = firstn n (skipn i t)).
  { intro z. destruct (Nat.eq_dec n 0) as [Z|Z]; [rewrite Z; reflexivity|]. rewrite skipn_app, firstn_app, skipn_length.
    replace (n - (length t - i)) with 0 by (unfold i, n in *; lia). rewrite firstn_O, app_nil_r. reflexivity. }
  rewrite <- app_assoc, G. reflexivity.
Qed.
Print Assumptions C40_underlines_the_piece.

(** A problem about a token of the sources is the problem about its place: the token's text is what is underlined. *)
Theorem C40_token_report plugins r k r' msg : reachable plugins r -> tmp r = None -> next_tok plugins r = Ret (k, r') -> k_kind k <> Eof ->
  err_token_full r msg k = err_at r msg (k_loc k).
Proof.
  intros R ET E NE. destruct (next_tok_calm plugins r k r' (reachable_inv _ _ R) ET E NE) as (_ & _ & (s & A & B & C)).
  unfold err_token_full, err_at. rewrite B. cbn [l_end l_start]. f_equal. lia.
Qed.
Print Assumptions C40_token_report.

(** A problem about where a token starts is the same problem, underlining one byte only. *)
Theorem C40_token_start_report r msg k : match err_token_start r msg k, err_at r msg (k_loc k) with
  | Ret d, Ret d' => d_line_num d = d_line_num d' /\ d_line d = d_line d' /\ d_start d = d_start d' /\ d_width d = 1 /\ d_msg d = msg /\ d_src d = l_src (k_loc k)
  | Panic, Panic => True
  | _, _ => False
  end.
Proof.
  unfold err_token_start, err_at, located_diag. destruct (root_line_number r (k_loc k)) as [[n off]|]; [|exact I]. destruct (root_line_of r (k_loc k)); [|exact I]. cbn. repeat split.
Qed.
Print Assumptions C40_token_start_report.
(** A problem about a line underlines all of it: the source line at a place, or the text of a line of tokens from its first token on. *)
Theorem C40_line_reports r msg x line :
  match err_line_of r msg x, err_at r msg x with
  | Ret d, Ret d' => d_line_num d = d_line_num d' /\ d_line d = d_line d' /\ d_start d = 0 /\ d_width d = length (d_line d) /\ d_msg d = msg /\ d_src d = l_src x
  | Panic, Panic => True
  | _, _ => False
  end /\
  forall k d, err_line r msg (k :: line) = Ret d ->
    d_line d = k_lexeme k ++ concat (map k_lexeme line) /\ d_width d = length (d_line d) /\ root_line_number r (k_loc k) = Ret (d_line_num d, d_start d) /\
    d_msg d = msg /\ d_src d = l_src (k_loc k).
Proof.
  split.
  - unfold err_line_of, err_at, located_diag. destruct (root_line_number r x) as [[n off]|]; [|exact I]. destruct (root_line_of r x); [|exact I]. cbn. repeat split.
  - intros k d. unfold err_line. destruct (root_line_number r (k_loc k)) as [[n off]|]; [|discriminate]. intro E. injection E as <-. cbn. repeat split.
Qed.
Print Assumptions C40_line_reports.

(** A problem about a pattern underlines its first occurrence in the line, or the whole line if there is none. *)
Theorem C40_pattern_report r msg x pattern d : err_at_pattern r msg x pattern = Ret d ->
  (exists a z, d_line d = a ++ pattern ++ z /\ d_start d = length a /\ d_width d = length pattern /\
     forall a' z', d_line d = a' ++ pattern ++ z' -> length a <= length a') \/
  (d_start d = 0 /\ d_width d = length (d_line d) /\ forall a z, d_line d <> a ++ pattern ++ z).
Proof.
  unfold err_at_pattern. destruct (root_line_number r x) as [[n off]|]; [|discriminate]. destruct (root_line_of r x) as [line|]; [|discriminate].
  intro E. injection E as E. destruct (find_sub pattern line) as [i|] eqn:F; subst d; cbn [d_line d_start d_width].
  - left. destruct (find_sub_spec _ _ _ F) as (a & z & A & B & C). exists a, z. auto.
  - right. repeat split; auto. apply find_sub_none, F.
Qed.
Print Assumptions C40_pattern_report.

(** The printed report puts the carets under the underlined bytes, for line numbers of up to five digits. *)
Theorem C40_carets_aligned name d : 0 < d_line_num d -> (N.of_nat (d_line_num d) < 100000)%N ->
  exists above gutter gutter', plain_text name d =
    above ++ [newline] ++ gutter ++ d_line d ++ [newline] ++ gutter' ++ spaces (d_start d) ++ repeat "^"%char (d_width d) ++ $" " ++ d_msg d ++ [newline] /\
    gutter = b (dec (d_line_num d)) ++ $" | " /\ length gutter' = length gutter.
Proof.
  intros P H. unfold plain_text. set (pad := line_num_pad (d_line_num d)).
  eexists (spaces (pad - 3) ++ $"--> " ++ name ++ $":" ++ b (dec (d_line_num d)) ++ $":" ++ b (dec (d_start d + 1)) ++ [LF] ++ spaces (pad - 2) ++ $"|"),
    (b (dec (d_line_num d)) ++ $" | "), (spaces (pad - 2) ++ $"|" ++ $" "). split; [|split].
  - change ($" | ") with ($" " ++ $"|" ++ $" "). rewrite <- !app_assoc. reflexivity.
  - reflexivity.
  - rewrite !app_length. unfold spaces. rewrite repeat_length. pose proof (pad_exact _ P H) as Q. fold pad in Q. cbn [length b list_ascii_of_string]. lia.
Qed.
Print Assumptions C40_carets_aligned.
(** Six-digit line numbers shift the carets by one; and the carets count bytes, so one two-byte letter before the piece shifts them too. *)
Theorem C40_carets_six_digits_refuted : length (b (dec (N.to_nat 100000))) + 3 <> line_num_pad (N.to_nat 100000).
Proof. vm_compute. discriminate. Qed.
Print Assumptions C40_carets_six_digits_refuted.
Theorem C40_carets_count_bytes_refuted : let e_acute := [ascii_of_nat 195; ascii_of_nat 169] in
  exists d, err_at (new_root (e_acute ++ $"x")) ($"m") (mkLoc 2 3 0) = Ret d /\ d_start d = 2 /\ utf8_char e_acute.
Proof. cbv zeta. eexists. split; [vm_compute; reflexivity|]. split; [reflexivity|]. apply U2; reflexivity. Qed.
Print Assumptions C40_carets_count_bytes_refuted.

(** *** Concrete cases *)
Definition demo_text : bytes := $"one two" ++ [newline] ++ $"three " ++ [return_; newline] ++ $"four".
Example C17_ex_on_line : on_line demo_text 10 ($"one two" ++ [newline]) ($"three " ++ [return_]) ([newline] ++ $"four").
Proof.
  constructor; cbn; try lia; try reflexivity.
  - intro H. vm_compute in H. repeat destruct H as [H|H]; try discriminate; contradiction.
  - right. exists ($"one two"). reflexivity.
  - right. exists ($"four"). reflexivity.
Qed.
Example C17_ex_number : line_number_with_offset (from_bytes demo_text) 10 = Ret (2, 2) /\ line_of (from_bytes demo_text) 10 = Ret ($"three").
Proof. split; vm_compute; reflexivity. Qed.
Example C17_ex_raw : raw_lines demo_text = [$"one two"; $"three " ++ [return_]; $"four"].
Proof. vm_compute. reflexivity. Qed.
Example C40_ex_report : plain_text ($"a.adoc") (mkDiag 2 ($"foo bar") ($"bad") 4 3 0) =
  $" --> a.adoc:2:5" ++ [newline] ++ $"  |" ++ [newline] ++ $"2 | foo bar" ++ [newline] ++ $"  |     ^^^ bad" ++ [newline].
Proof. vm_compute. reflexivity. Qed.
Example C40_ex_parse : let d n := mkDiag n [] [] 0 0 0 in
  reported (Report (d 1) (Cell 4 (Report (d 2) Finish) (Report (d 9) Finish))) = [d 1; d 6; d 9].
Proof. vm_compute. reflexivity. Qed.
