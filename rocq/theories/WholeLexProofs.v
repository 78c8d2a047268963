(** The tokens of a text of words (C67). *)
From Verif Require Import Base Utf8 LexerModel LexerSpec LexerProofs LineModel InlineModel InlineSpec WholeModel.
From Verif Require Import WholeSpec.
Import ListNotations.
Open Scope list_scope.
Open Scope nat_scope.

(** ** Pieces: kinds and texts of tokens *)
Definition piece : Type := kind * bytes.
Definition flat (l : list piece) : bytes := concat (map snd l).
Definition final (prev : option ascii) (x : bytes) : option ascii := match x with [] => prev | _ => last (map Some x) None end.
(** what the tokens of pieces are, from place [p] after the byte [prev] on *)
Fixpoint lay (p : nat) (prev : option ascii) (l : list piece) : list tok :=
  match l with [] => [] | (k, x) :: r => TokI k x (Info false p prev 0) :: lay (p + length x) (final prev x) r end.
Definition starts_line (prev : option ascii) : bool := match prev with None => true | Some c => Ascii.eqb c LF end.
Section Lex.
Variable plugins : list bytes.
(** the lexer reads the pieces before [rest] *)
Fixpoint scans (prev : option ascii) (l : list piece) (rest : bytes) : Prop :=
  match l with
  | [] => True
  | (k, x) :: r => x <> [] /\ Forall (fun c => ascii7 c = true) x /\ k <> MaybeEmail /\
                   scan plugins prev (starts_line prev) (x ++ flat r ++ rest) = Ret (Some (mkRaw k 0 (length x) (length x))) /\ scans (final prev x) r rest
  end.
Definition final_of (prev : option ascii) (l : list piece) : option ascii := final prev (flat l).
Lemma final_app prev x y : final prev (x ++ y) = final (final prev x) y.
Proof.
  destruct y as [|c y]; [now rewrite app_nil_r|]. destruct x as [|d x]; [reflexivity|]. unfold final. cbn [app]. change (d :: x ++ c :: y) with ((d :: x) ++ (c :: y)).
  rewrite map_app. generalize (map Some (d :: x)) as m. intros m. induction m as [|a m IH]; [reflexivity|]. cbn [app]. rewrite <- IH. now destruct m.
Qed.
Lemma scans_app l1 : forall prev l2 rest, scans prev (l1 ++ l2) rest <-> scans prev l1 (flat l2 ++ rest) /\ scans (final_of prev l1) l2 rest.
Proof.
  induction l1 as [|[k x] l1 IH]; intros prev l2 rest; [cbn; tauto|]. cbn [app scans]. unfold flat at 1. rewrite map_app, concat_app. fold (flat l1) (flat l2). rewrite <- app_assoc.
  rewrite IH. unfold final_of. cbn [flat map concat snd]. fold (flat l1). change (concat (x :: map snd l1)) with (x ++ flat l1). rewrite final_app. tauto.
Qed.
Lemma lay_app l1 : forall p prev l2, lay p prev (l1 ++ l2) = lay p prev l1 ++ lay (p + length (flat l1)) (final_of prev l1) l2.
Proof.
  induction l1 as [|[k x] l1 IH]; intros p prev l2; [cbn; now rewrite Nat.add_0_r|]. cbn [app lay]. rewrite IH. unfold final_of, flat. cbn [map concat snd]. rewrite final_app, app_length, Nat.add_assoc. reflexivity.
Qed.

Lemma last_final x : last (map Some x) None = final None x.
Proof. now destruct x. Qed.
Lemma line_start_prev x y : at_line_start (LexerProofs.at_ x y 0) = starts_line (final None x).
Proof. unfold at_line_start. rewrite prev_at, last_final. unfold LexerProofs.at_. cbn [pos]. destruct x as [|c x] using rev_ind; [reflexivity|]. clear IHx. unfold final. rewrite map_app. cbn [map]. rewrite last_last. rewrite app_length, Nat.add_comm. cbn. destruct (x ++ [c]) eqn:E; [now destruct x|]. reflexivity. Qed.
Lemma tokens_of l : forall fuel x, length l < fuel -> scans (final None x) l [] ->
  exists ts, tokens plugins fuel (LexerProofs.at_ x (flat l) 0) = Ret (Some ts) /\ map (InlineSpec.placed (x ++ flat l)) ts = lay (length x) (final None x) l.
Proof.
  induction l as [|[k y] l IH]; intros fuel x L S; (destruct fuel as [|f]; [lia|]); cbn [tokens].
  - change (flat []) with (@nil ascii). rewrite next_end. now exists [].
  - cbn [scans] in S. rewrite app_nil_r in S. destruct S as (NE & A & NM & SC & S). change (flat ((k, y) :: l)) with (y ++ flat l).
    assert (N : next_token plugins (LexerProofs.at_ x (y ++ flat l) 0) = Ret (Some (mkToken k (length x + 0) (length x + length y + 0) y), LexerProofs.at_ (x ++ y) (flat l) 0)).
    { unfold next_token. rewrite rest_at, line_start_prev, prev_at, last_final, SC. cbn [r_kind r_start r_end r_pos]. unfold make_token. cbn [src pos offset LexerProofs.at_]. rewrite !app_length.
      replace (length x + length y <? length x + 0) with false by (symmetry; apply Nat.ltb_ge; lia).
      replace (length x + (length y + length (flat l)) <? length x + length y) with false by (symmetry; apply Nat.ltb_ge; lia).
      cbn [orb]. rewrite Nat.add_0_r, skipn_pre. replace (length x + length y - length x) with (length y) by lia. rewrite firstn_pre.
      replace (is_utf8 y) with true by (symmetry; apply is_utf8_spec; now apply utf8_ascii). rewrite orb_true_r. unfold LexerProofs.at_. rewrite app_length, <- app_assoc, !Nat.add_0_r. reflexivity. }
    rewrite N. destruct (IH f (x ++ y)) as (ts & T & M); [cbn in L; lia|now rewrite final_app|]. rewrite T. eexists. split; [reflexivity|]. cbn [map lay]. rewrite <- app_assoc in M.
    rewrite M, app_length, final_app. f_equal. unfold InlineSpec.placed. cbn [t_kind t_start t_lexeme]. rewrite Nat.add_0_r.
    pose proof (prev_at x (y ++ flat l) 0) as PA. unfold prev_byte, LexerProofs.at_ in PA. cbn [pos src] in PA. rewrite PA, last_final. destruct k; congruence.
Qed.

(** ** Single tokens *)
Lemma by_byte (f : ascii -> bool) : forallb f (map ascii_of_nat (List.seq 0 256)) = true -> forall c, f c = true.
Proof.
  intros H c. rewrite forallb_forall in H. apply H. apply in_map_iff. exists (nat_of_ascii c). split; [apply ascii_nat_embedding|]. apply in_seq. split; [lia|]. apply nat_ascii_bounded.
Qed.
Definition one_of_bytes (l : bytes) (c : ascii) : bool := existsb (Ascii.eqb c) l.
Lemma among l c : existsb (Ascii.eqb c) l = true -> In c l.
Proof. intros H. apply existsb_exists in H as (d & I & E). apply Ascii.eqb_eq in E. now subst. Qed.
Definition stoppers : bytes := [" "%char; LF; ","%char; "."%char; "!"%char; "?"%char; "*"%char; "_"%char; "`"%char].
Definition stop (r : bytes) : Prop := match r with [] => True | c :: _ => one_of_bytes stoppers c = true end.
(** what follows a phrase and its punctuation *)
Definition tail (r : bytes) : Prop := match r with [] => True | c :: _ => one_of_bytes [" "%char; LF] c = true end.
Lemma stop_tail r : tail r -> stop r.
Proof. destruct r as [|c r]; [easy|]. cbn [tail stop]. unfold one_of_bytes, stoppers. cbn [existsb]. intros H. apply orb_true_iff in H as [H|H]; [now rewrite H|]. apply orb_true_iff in H as [H|H]; [|discriminate H]. rewrite H. now rewrite !orb_true_r. Qed.
Lemma in_word_name c : a_letter c || a_digit c = true -> in_word true c = true.
Proof. intros H. assert (F := by_byte (fun c => implb (a_letter c || a_digit c) (in_word true c)) eq_refl c). cbn beta in F. now rewrite H in F. Qed.
Lemma stopper_out c : one_of_bytes stoppers c = true -> in_word true c = false /\ Ascii.eqb c ":" = false /\ Ascii.eqb c "@" = false /\ digit c = false.
Proof.
  intros H. assert (F := by_byte (fun c => implb (one_of_bytes stoppers c) (negb (in_word true c) && negb (Ascii.eqb c ":") && negb (Ascii.eqb c "@") && negb (digit c))) eq_refl c).
  cbn beta in F. rewrite H in F. cbn [implb] in F. rewrite !andb_true_iff, !negb_true_iff in F. tauto.
Qed.
Lemma a_name_inv w : a_name w = true -> exists c r, w = c :: r /\ a_letter c = true /\ Forall (fun c => a_letter c || a_digit c = true) r.
Proof. destruct w as [|c r]; [discriminate|]. cbn. intros H. apply andb_true_iff in H as [H1 H2]. exists c, r. rewrite forallb_forall in H2. rewrite Forall_forall. auto. Qed.
(** where a byte does not start a delimiter line *)
Lemma no_delimiter ls c r : is (nth_error r 0) c = false -> at_delimiter_line ls (c :: r) = None.
Proof.
  intros H. unfold at_delimiter_line. destruct (negb ls || negb (mem c _)); [reflexivity|]. cbn zeta. cbn [nth_error] in *.
  rewrite H. now rewrite !andb_false_r.
Qed.
Lemma no_delimiter_byte ls c r : mem c ["_"%char; "-"%char; "*"%char; "="%char; "."%char; "+"%char; "/"%char; "`"%char] = false -> at_delimiter_line ls (c :: r) = None.
Proof. intros H. unfold at_delimiter_line. rewrite H. now rewrite orb_true_r. Qed.

Definition word_byte (c : ascii) : bool :=
  negb (mem c ["_"%char; "-"%char; "*"%char; "="%char; "."%char; "+"%char; "/"%char; "`"%char]) && match look c repeats with None => true | _ => false end && match look c singles with None => true | _ => false end &&
  negb (mem c ws_bytes) && negb (Ascii.eqb c "&") && negb (Ascii.eqb c "<") && negb (Ascii.eqb c "{") && negb (Ascii.eqb c CR) && negb (digit c) && negb (Ascii.eqb c ";" || Ascii.eqb c ":") &&
  negb (Ascii.eqb c (ch 194)) && negb (Ascii.eqb c (ch 226)) && negb (Ascii.eqb c (ch 227)) && negb (Ascii.eqb c (ch 239)) && negb (Ascii.eqb c ESC).
Lemma scan_word prev ls c r : a_letter c = true -> scan plugins prev ls (c :: r) = match word plugins (c :: r) with Panic => Panic | Ret x => Ret (Some x) end.
Proof.
  intros H. assert (F := by_byte (fun c => implb (a_letter c) (word_byte c)) eq_refl c). cbn beta in F. rewrite H in F. cbn [implb] in F. unfold word_byte in F.
  rewrite !andb_true_iff, !negb_true_iff in F. decompose [and] F. clear F.
  unfold scan. rewrite no_delimiter_byte by assumption. destruct (look c repeats); [discriminate|]. destruct (look c singles); [discriminate|].
  repeat match goal with E : ?x = false |- context [?x] => rewrite E; cbn [andb] end.
  replace (existsb (fun p => starts_with p (c :: r)) wide_punctuation) with false; [reflexivity|]. symmetry.
  apply not_true_iff_false. intros E. apply existsb_exists in E as (p & I & S).
  assert (Q : forall d q, starts_with (d :: q) (c :: r) = true -> Ascii.eqb c d = true).
  { intros d q K. cbn [starts_with] in K. apply andb_true_iff in K as [K _]. now rewrite Ascii.eqb_sym. }
  unfold wide_punctuation in I. cbn [map In] in I. decompose [or] I; try contradiction; subst p; apply Q in S; congruence.
Qed.
Lemma s_name prev ls w r : a_name w = true -> stop r -> scan plugins prev ls (w ++ r) = Ret (Some (mkRaw Word 0 (length w) (length w))).
Proof.
  intros N S. apply a_name_inv in N as (c & x & -> & L & A). cbn [app]. rewrite scan_word by exact L. unfold word. cbn [skipn].
  assert (R : LexerModel.run (in_word true) (x ++ r) = length x).
  { apply run_app; [eapply Forall_impl; [|exact A]; intros d H; now apply in_word_name|]. intros d q ->. cbn in S. now apply stopper_out in S. }
  rewrite R. cbn [Nat.add firstn skipn]. rewrite firstn_pre, skipn_pre.
  assert (K : forall d, d = ":"%char \/ d = "@"%char -> is (nth_error r 0) d = false).
  { intros d D. destruct r as [|e r]; [reflexivity|]. cbn. cbn in S. apply stopper_out in S as (_ & S1 & S2 & _). destruct D; subst; assumption. }
  rewrite !K by auto. cbn [andb length]. reflexivity.
Qed.
Lemma s_number prev ls w r : a_number w = true -> stop r -> scan plugins prev ls (w ++ r) = Ret (Some (mkRaw Digits 0 (length w) (length w))).
Proof.
  intros N S. destruct w as [|c x]; [discriminate|]. unfold a_number in N. cbn [forallb] in N. apply andb_true_iff in N as [D A]. cbn [app].
  assert (F := by_byte (fun c => implb (a_digit c) (negb (mem c ["_"%char; "-"%char; "*"%char; "="%char; "."%char; "+"%char; "/"%char; "`"%char]) && match look c repeats with None => true | _ => false end && match look c singles with None => true | _ => false end &&
    negb (mem c ws_bytes) && negb (Ascii.eqb c "&") && negb (Ascii.eqb c "<") && negb (Ascii.eqb c "{") && negb (Ascii.eqb c CR) && digit c)) eq_refl c). cbn beta in F. rewrite D in F. cbn [implb] in F.
  rewrite !andb_true_iff, !negb_true_iff in F. decompose [and] F. clear F.
  unfold scan. rewrite no_delimiter_byte by assumption. destruct (look c repeats); [discriminate|]. destruct (look c singles); [discriminate|].
  repeat match goal with E : ?x = false |- context [?x] => rewrite E; cbn [andb] end. replace (digit c) with true by congruence. unfold digits.
  rewrite run_app; [reflexivity| |].
  - rewrite forallb_forall in A. apply Forall_forall. intros d I. specialize (A d I). assert (F := by_byte (fun c => implb (a_digit c) (digit c)) eq_refl d). cbn beta in F. now rewrite A in F.
  - intros d q ->. cbn in S. now apply stopper_out in S.
Qed.
Lemma s_space prev ls c r : mem c ws_bytes = false -> scan plugins prev ls ($" " ++ c :: r) = Ret (Some (mkRaw Whitespace 0 1 1)).
Proof. intros H. change ($" " ++ c :: r) with (" "%char :: c :: r). unfold scan. rewrite no_delimiter_byte by reflexivity. cbn. unfold whitespace. cbn [LexerModel.run]. now rewrite H. Qed.
Lemma s_newline prev ls r : scan plugins prev ls (newline ++ r) = Ret (Some (mkRaw Newline 0 1 1)).
Proof. change newline with [LF]. cbn [app]. unfold scan. now rewrite no_delimiter_byte. Qed.
Definition punct_kind (c : ascii) : kind := if Ascii.eqb c "," then Comma else if Ascii.eqb c "." then Dots else if Ascii.eqb c "!" then Bang else QuestionMark.
Lemma s_punct prev ls c r : one_of_bytes [","; "."; "!"; "?"]%char c = true -> tail r -> scan plugins prev ls ([c] ++ r) = Ret (Some (mkRaw (punct_kind c) 0 1 1)).
Proof.
  intros H T. cbn [app]. apply among in H. cbn [In] in H.
  assert (N : is (nth_error r 0) c = false).
  { destruct r as [|d r]; [reflexivity|]. cbn [tail] in T. apply among in T. cbn [In] in T. decompose [or] H; try contradiction; decompose [or] T; try contradiction; subst; reflexivity. }
  unfold scan. rewrite no_delimiter by exact N.
  decompose [or] H; try contradiction; subst c; try reflexivity. cbn. unfold repeating. destruct r as [|d r]; [reflexivity|]. cbn [LexerModel.run]. cbn [nth_error is] in N. rewrite Ascii.eqb_sym, N. reflexivity.
Qed.
Definition mark_kind (s : style) : kind := match s with Strong => Star | Emphasis => Underscore | Code => Backtick end.
Lemma s_mark prev ls s r : (forall c t, r = c :: t -> Ascii.eqb c (match s with Strong => "*" | Emphasis => "_" | Code => "`" end) = false) ->
  scan plugins prev ls (mark s ++ r) = Ret (Some (mkRaw (mark_kind s) 0 1 1)).
Proof.
  intros H. assert (N : forall d, (match s with Strong => "*" | Emphasis => "_" | Code => "`" end)%char = d -> is (nth_error r 0) d = false).
  { intros d <-. destruct r as [|c r]; [reflexivity|]. cbn. now apply (H c r). }
  destruct s; [change (mark Strong ++ r) with ("*"%char :: r)|change (mark Emphasis ++ r) with ("_"%char :: r)|change (mark Code ++ r) with ("`"%char :: r)]; unfold scan; rewrite no_delimiter by (now apply N); reflexivity.
Qed.
Definition special_kind_of (c : ascii) : kind := if Ascii.eqb c "&" then Ampersand else if Ascii.eqb c "<" then LessThan else GreaterThan.
Lemma s_special prev ls c x r : one_of_bytes ["&"; "<"; ">"]%char c = true -> punctuation_ok x = true -> tail r -> scan plugins prev ls ([c] ++ x ++ r) = Ret (Some (mkRaw (special_kind_of c) 0 1 1)).
Proof.
  intros H X T. cbn [app]. apply among in H. cbn [In] in H.
  assert (B : forall d t, x ++ r = d :: t -> In d [" "; LF; ","; "."; "!"; "?"]%char).
  { intros d t E. destruct x as [|e [|e' x]]; cbn [app] in E.
    - subst r. cbn [tail] in T. apply among in T. cbn [In] in *. tauto.
    - injection E as -> _. cbn [punctuation_ok] in X. apply among in X. cbn [In] in *. tauto.
    - discriminate X. }
  unfold scan. rewrite no_delimiter_byte by (decompose [or] H; try contradiction; subst; reflexivity).
  decompose [or] H; try contradiction; subst c; [| |reflexivity].
  - cbn. unfold maybe_entity. destruct (x ++ r) as [|d t] eqn:E; [reflexivity|]. specialize (B d t eq_refl). cbn [In] in B. decompose [or] B; try contradiction; subst d; reflexivity.
  - cbn. unfold maybe_callout_number. destruct x as [|e [|e' x]]; [| |discriminate X]; cbn [app] in *.
    + destruct r as [|d t]; [reflexivity|]. cbn [tail] in T. apply among in T. cbn [In] in T. decompose [or] T; try contradiction; subst d; reflexivity.
    + cbn [punctuation_ok] in X. apply among in X. cbn [In] in X. destruct r as [|d t]; [decompose [or] X; try contradiction; subst e; reflexivity|].
      cbn [tail] in T. apply among in T. cbn [In] in T. decompose [or] X; try contradiction; subst e; decompose [or] T; try contradiction; subst d; reflexivity.
Qed.
End Lex.
