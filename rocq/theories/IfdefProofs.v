(** Proofs about conditional directives. *)
From Verif Require Import Base Text Utf8 LexerModel LexerSpec LexerProofs RootModel AttrsModel TagsProofs IfdefModel IfdefSpec.
From Coq Require Import Lia.

(** ** one source, no temporary buffer *)
Definition here (x y : bytes) : root := mkRoot 0 None [] [mkSource (at_ x y 0) None] None.
Lemma new_here s : new_root s = here [] s.
Proof. reflexivity. Qed.
Lemma peek_at x y o : lex_peek (at_ x y o) = hd_error y.
Proof. unfold lex_peek, at_. cbn [src pos]. rewrite nth_pre0. destruct y; reflexivity. Qed.
Lemma peek_here x y : peek (here x y) = Ret (hd_error y).
Proof. unfold peek, here. cbn -[at_]. unfold source_peek. cbn -[at_]. rewrite peek_at. destruct y; reflexivity. Qed.
Lemma eof_here x y : is_eof (here x y) = Ret match y with [] => true | _ => false end.
Proof. unfold is_eof. rewrite peek_here. destruct y; reflexivity. Qed.
Lemma left_here x y : left_over (here x y) = length y.
Proof. unfold left_over, here. cbn [tmp sources map list_sum fold_right s_lex]. unfold left_in. rewrite rest_at. lia. Qed.
Lemma move_at x c y o : move 1 (at_ x (c :: y) o) = at_ (x ++ [c]) y o.
Proof. unfold move, at_. cbn [src pos offset]. rewrite <- app_assoc, app_length. reflexivity. Qed.
Lemma next_here plugins x y t x' y' : next_token plugins (at_ x y 0) = Ret (Some t, at_ x' y' 0) ->
  next_tok plugins (here x y) = Ret (located 0 t, here x' y').
Proof. intro H. unfold next_tok, here. cbn -[at_ next_token]. rewrite H. reflexivity. Qed.
Lemma skip_here x c y : skip_byte (here x (c :: y)) = Ret (here (x ++ [c]) y).
Proof.
  unfold skip_byte, here. cbn -[at_ move lex_peek]. rewrite peek_at. cbn [hd_error].
  unfold set_lex. cbn [nth_error set_nth s_lex s_max]. rewrite move_at. reflexivity.
Qed.
Lemma newline_here x z : skip_newline (here x (LF :: z)) = Ret (here (x ++ [LF]) z).
Proof.
  unfold skip_newline, skip_if, peek_is. rewrite peek_here. cbn [hd_error is].
  replace (Ascii.eqb LF CR) with false by reflexivity. rewrite peek_here. cbn [hd_error is].
  replace (Ascii.eqb LF LF) with true by reflexivity. apply skip_here.
Qed.

(** ** the tokens of a line *)
Lemma prefix_le : forall (w z0 l z : bytes), w ++ z0 = l ++ LF :: z -> ~ In LF w -> exists l', l = w ++ l' /\ z0 = l' ++ LF :: z.
Proof.
  induction w as [|c w IH]; intros z0 l z E N; [exists l; split; [reflexivity|exact E]|].
  destruct l as [|d l]; cbn in E.
  - injection E as -> _. destruct N. left. reflexivity.
  - injection E as -> E. destruct (IH _ _ _ E) as (l' & -> & ->); [intro I; apply N; right; exact I|]. exists l'. split; reflexivity.
Qed.
Lemma newline_lexeme plugins w : lexeme_of plugins Newline w -> w = [newline] \/ w = [return_; newline].
Proof.
  intro L. inversion L; subst.
  - cbn in H. repeat (destruct H as [H|H]; [discriminate|]). destruct H.
  - destruct H as [<-|[<-|[]]]; auto.
  - cbn in H. repeat (destruct H as [H|H]; [discriminate|]). destruct H.
Qed.
Definition one_line (l : bytes) : Prop := ~ In newline l /\ ~ In return_ l.
Lemma one_line_app x y : one_line (x ++ y) -> one_line x /\ one_line y.
Proof. intros [A B]. repeat split; intro I; [apply A|apply B|apply A|apply B]; apply in_or_app; auto. Qed.
Lemma line_token plugins x l z : plain_plugins plugins -> l <> [] -> one_line l -> utf8 (l ++ LF :: z) ->
  exists k w l' lo, l = w ++ l' /\ w <> [] /\ lexeme_of plugins k w /\ utf8 (l' ++ LF :: z) /\
    next_tok plugins (here x (l ++ LF :: z)) = Ret (mkRtok k w lo, here (x ++ w) (l' ++ LF :: z)).
Proof.
  intros PL NE [N R] U. destruct (next_some plugins x (l ++ LF :: z) 0) as (k & w & z0 & E & NW & U0 & L & P & NT); [destruct l; discriminate|exact U|].
  assert (NK : k <> Newline).
  { intros ->. apply newline_lexeme in L. destruct l as [|c l]; [congruence|].
    destruct L as [->| ->]; cbn in E; injection E as -> E; [apply N|apply R]; left; reflexivity. }
  assert (NN : ~ In LF w) by (apply (lexeme_no_newline plugins k w); [intros p I; exact (proj1 (PL p I))|exact L|exact NK]).
  destruct (prefix_le _ _ _ _ (eq_sym E) NN) as (l' & El & ->).
  eexists k, w, l', _. repeat split; try assumption. apply (next_here _ _ _ _ _ _ NT).
Qed.
Lemma line_tokens_nil plugins z x fuel : 0 < fuel ->
  exists ks, read_tokens plugins fuel (here x (LF :: z)) = Ret (ks, here (x ++ []) (LF :: z)) /\ source_of ks = [] /\
    Forall (fun k => lexeme_of plugins (k_kind k) (k_lexeme k) /\ k_lexeme k <> []) ks.
Proof.
  intro F. exists []. rewrite app_nil_r. destruct fuel; [lia|]. cbn [read_tokens]. unfold at_newline. rewrite peek_here, eof_here.
  split; [reflexivity|split; [reflexivity|constructor]].
Qed.
Lemma line_tokens plugins z : plain_plugins plugins -> forall n l x fuel, length l <= n -> one_line l -> utf8 (l ++ LF :: z) -> length l < fuel ->
  exists ks, read_tokens plugins fuel (here x (l ++ LF :: z)) = Ret (ks, here (x ++ l) (LF :: z)) /\ source_of ks = l /\
    Forall (fun k => lexeme_of plugins (k_kind k) (k_lexeme k) /\ k_lexeme k <> []) ks.
Proof.
  intro PL. induction n as [|n IH]; intros l x fuel Ln O U F.
  { destruct l as [|c l]; [|cbn in Ln; lia]. apply line_tokens_nil, F. }
  destruct l as [|c l]; [apply line_tokens_nil, F|]. destruct fuel as [|fuel]; [lia|].
  destruct (line_token plugins x (c :: l) z PL) as (k & w & l' & lo & E & NW & L & U' & NT); [discriminate|exact O|exact U|].
  assert (O' : one_line l') by (rewrite E in O; apply one_line_app in O; tauto).
  assert (LE : length (c :: l) = length w + length l') by (rewrite E; apply app_length). assert (0 < length w) by (destruct w; [congruence|cbn; lia]).
  destruct (IH l' (x ++ w) fuel) as (ks & R & S0 & FA); [lia|exact O'|exact U'|lia|].
  cbn [read_tokens]. unfold at_newline. rewrite peek_here, eof_here. cbn [app hd_error is].
  assert (NC : Ascii.eqb c LF || Ascii.eqb c CR = false).
  { destruct O as [O1 O2]. apply orb_false_iff. split; apply Ascii.eqb_neq; intros ->; [apply O1|apply O2]; left; reflexivity. }
  rewrite NC. cbn [app] in NT. rewrite NT, R. exists (mkRtok k w lo :: ks).
  rewrite <- app_assoc, <- E. repeat split; [cbn; rewrite E; f_equal; exact S0|constructor; auto].
Qed.
Lemma bracket_lexeme plugins k w : plain_plugins plugins -> lexeme_of plugins k w -> In "["%char w -> w = ["["%char].
Proof.
  intros PL L. assert (NL : forall P s, P "["%char = false -> all_of P s -> ~ In "["%char s).
  { intros P s F A I. unfold all_of in A. rewrite Forall_forall in A. rewrite (A _ I) in F. discriminate. }
  assert (CH : forall (c : ascii) s, c <> "["%char -> ~ In "["%char s -> ~ In "["%char (c :: s)) by (intros c s A B [I|I]; [congruence|contradiction]).
  assert (AP : forall s t, ~ In "["%char s -> ~ In "["%char t -> ~ In "["%char (s ++ t)) by (intros s t A B I; apply in_app_or in I as [I|I]; contradiction).
  assert (LIT : forall s, in_list s "["%char = false -> ~ In "["%char s) by (intro s; apply in_list_not).
  assert (SEP : forall s, (forall x, In x s -> ~ In x separators) -> ~ In "["%char s).
  { intros s H I. apply (H "["%char I). apply in_list_In. reflexivity. }
  assert (WS : forall c, ~ In c not_word_start -> c <> "["%char) by (intros c H ->; apply H; apply in_list_In; reflexivity).
  assert (REP : forall c n, c <> "["%char -> ~ In "["%char (repeat c n)) by (intros c n H I; apply repeat_spec in I; congruence).
  destruct L; intro I; try solve [exfalso; revert I; eauto 8].
  - cbn in I. destruct I as [->|[]]. reflexivity.
  - exfalso. destruct H as [<-|[<-|[]]]; revert I; apply LIT; reflexivity.
  - exfalso. revert I. apply REP. intros ->. cbn in H. repeat (destruct H as [H|H]; [discriminate|]). destruct H.
  - exfalso. revert I. apply (NL _ _ eq_refl H0).
  - exfalso. revert I. apply (NL is_digit _ eq_refl H0).
  - exfalso. revert I. apply AP; [apply LIT; reflexivity|]. apply AP; [|apply LIT; reflexivity].
    destruct H as [[_ A]|(h & -> & _ & A)]; [apply (NL is_digit _ eq_refl A)|apply AP; [apply LIT; reflexivity|apply (NL is_hex _ eq_refl A)]].
  - exfalso. revert I. apply AP; [apply LIT; reflexivity|]. apply CH; [intros ->; discriminate|]. apply CH; [intros ->; discriminate|].
    apply AP; [apply (NL is_alnum _ eq_refl H1)|apply LIT; reflexivity].
  - exfalso. revert I. apply AP; [apply LIT; reflexivity|]. apply AP; [apply (NL name_byte _ eq_refl H0)|apply LIT; reflexivity].
  - exfalso. revert I. apply AP; [apply LIT; reflexivity|]. apply AP; [|apply LIT; reflexivity].
    destruct H as [->|[_ A]]; [apply LIT; reflexivity|apply (NL is_digit _ eq_refl A)].
  - exfalso. revert I. apply AP; [apply LIT; reflexivity|]. apply AP; [|apply LIT; reflexivity].
    destruct H as [->|[_ A]]; [apply LIT; reflexivity|apply (NL is_digit _ eq_refl A)].
  - exfalso. revert I. cbn [In] in H. repeat (destruct H as [<-|H]; [apply LIT; reflexivity|]). destruct H.
  - exfalso. revert I. cbn [In] in H. repeat (destruct H as [<-|H]; [apply LIT; reflexivity|]). destruct H.
  - exfalso. revert I. apply AP; [apply LIT; reflexivity|]. apply REP. discriminate.
  - exfalso. revert I. cbn [In map] in H. repeat (destruct H as [<-|H]; [apply LIT; reflexivity|]). destruct H.
  - exfalso. revert I. apply LIT. reflexivity.
  - exfalso. revert I. cbn [In] in H. apply AP; [|apply LIT; reflexivity]. repeat (destruct H as [<-|H]; [apply LIT; reflexivity|]). destruct H.
  - exfalso. revert I. cbn [In] in H. repeat (destruct H as [<-|H]; [apply LIT; reflexivity|]). destruct H.
  - exfalso. revert I. apply AP; [|apply LIT; reflexivity]. destruct H as [H|H]; [apply (PL _ H)|].
    cbn [In] in H. repeat (destruct H as [<-|H]; [apply LIT; reflexivity|]). destruct H.
  - exfalso. revert I. apply CH; [apply WS, H|]. apply AP; [apply SEP; intros y Iy X; apply (H0 y Iy); right; exact X|].
    apply AP; [apply LIT; reflexivity|]. apply (NL _ _ eq_refl H3).
  - exfalso. revert I. apply CH; [apply WS, H|]. apply SEP, H0.
Qed.

(** ** expressions *)
Lemma name_not c : name_byte c = true -> ~ In c ($"[],+: " ++ [LF; CR]).
Proof. intro H. apply in_list_not. destruct c as [[] [] [] [] [] [] [] []]; vm_compute in *; congruence. Qed.
Definition expr_byte (c : ascii) : bool := name_byte c || in_list ($",+") c.
Lemma expr_not c : expr_byte c = true -> ~ In c ($"[]: " ++ [LF; CR]).
Proof. intro H. apply in_list_not. destruct c as [[] [] [] [] [] [] [] []]; vm_compute in *; congruence. Qed.
Lemma expr_ascii c : expr_byte c = true -> between 0 127 c = true.
Proof. destruct c as [[] [] [] [] [] [] [] []]; vm_compute; congruence. Qed.
Lemma expression_bytes any names : Forall attribute_name names -> all_of expr_byte (expression any names).
Proof.
  unfold expression. set (s := if any then _ else _). assert (S0 : expr_byte s = true) by (destruct any; reflexivity).
  induction names as [|n r IH]; intro F; [constructor|]. inversion F as [|? ? [_ N] Fr]; subst. specialize (IH Fr).
  assert (N' : all_of expr_byte n) by (eapply all_of_impl; [|exact N]; intros c H; unfold expr_byte; rewrite H; reflexivity).
  destruct r as [|m r]; [exact N'|]. change (join_byte s (n :: m :: r)) with (n ++ s :: join_byte s (m :: r)).
  apply Forall_app. split; [exact N'|]. constructor; assumption.
Qed.
Lemma expr_free c s : all_of expr_byte s -> In c ($"[]: " ++ [LF; CR]) -> ~ In c s.
Proof. intros A I J. unfold all_of in A. rewrite Forall_forall in A. exact (expr_not c (A _ J) I). Qed.
Lemma expr_utf8 s : all_of expr_byte s -> utf8 s.
Proof. intro A. apply utf8_ascii. eapply Forall_impl; [|exact A]. exact expr_ascii. Qed.
Lemma tail_line s : all_of expr_byte s -> one_line (s ++ $"[]").
Proof.
  intro A. split; intro I; apply in_app_or in I as [I|[I|[I|[]]]]; try discriminate; revert I; apply expr_free; auto; cbn; tauto.
Qed.

(** ** skipping *)
Definition quiet (l : bytes) : Prop := forall w, In w [$"ifdef::"; $"ifndef::"; $"endif::"] -> ~ inside w l.
Lemma quiet_app x y : quiet (x ++ y) -> quiet x /\ quiet y.
Proof.
  intro Q. split; intros w I (p & q & ->); apply (Q w I).
  - exists p, (q ++ y). rewrite <- !app_assoc. reflexivity.
  - exists (x ++ p), q. rewrite <- !app_assoc. reflexivity.
Qed.
Lemma quiet_no_colon l : ~ In ":"%char l -> quiet l.
Proof.
  intros N w I (p & q & ->). apply N. apply in_or_app. right. apply in_or_app. left. cbn [In] in I.
  destruct I as [<-|[<-|[<-|[]]]]; cbn; tauto.
Qed.
Lemma quiet_names l k w lo s : quiet l -> (exists q, l = w ++ q) -> In s [$"ifdef::"; $"ifndef::"; $"endif::"] -> names_directive (mkRtok k w lo) s = false.
Proof.
  intros Q [q ->] I. unfold names_directive. cbn [k_lexeme]. destruct (bytes_eqb w s) eqn:E; [|apply andb_false_r].
  apply bytes_eqb_eq in E. subst w. destruct (Q s I). exists [], q. reflexivity.
Qed.
Lemma newline_tok plugins x z : next_tok plugins (here x (LF :: z)) = Ret (located 0 (mkToken Newline (length x + 0) (length x + 1 + 0) [LF]), here (x ++ [LF]) z).
Proof.
  apply next_here. apply (next_of_scan plugins x (LF :: z) 0 Newline [LF] z); [reflexivity|apply utf8_ascii; repeat constructor|].
  set (p := last _ _). clearbody p. set (ls := at_line_start _). clearbody ls. unfold scan.
  replace (at_delimiter_line ls (LF :: z)) with (@None (nat * ascii)) by (cbn; rewrite orb_true_r; reflexivity). reflexivity.
Qed.
Lemma skip_line plugins z : plain_plugins plugins -> z <> [] -> forall n l x, length l <= n -> one_line l -> quiet l -> utf8 (l ++ LF :: z) ->
  exists m, m <= S (length l) /\ forall f d, skip_to_endif plugins (m + f) d (here x (l ++ LF :: z)) = skip_to_endif plugins f d (here (x ++ l ++ [LF]) z).
Proof.
  intros PL NZ. induction n as [|n IH]; intros l x Ln O Q U.
  all: destruct l as [|c l]; [|try (cbn in Ln; lia)].
  1, 2: exists 1; split; [cbn; lia|]; intros f d; cbn [Nat.add app]; cbn [skip_to_endif]; rewrite newline_tok;
    cbn [located names_directive is_directive k_kind t_kind andb orb]; unfold names_directive, is_directive; cbn [located k_kind t_kind andb orb];
    rewrite eof_here; destruct z; [congruence|reflexivity].
  destruct (line_token plugins x (c :: l) z PL) as (k & w & l' & lo & E & NW & L & U' & NT); [discriminate|exact O|exact U|].
  assert (LE : length (c :: l) = length w + length l') by (rewrite E; apply app_length). assert (0 < length w) by (destruct w; [congruence|cbn; lia]).
  assert (Qw : forall s, In s [$"ifdef::"; $"ifndef::"; $"endif::"] -> names_directive (mkRtok k w lo) s = false)
    by (intros s I; apply (quiet_names (c :: l)); eauto).
  rewrite E in O, Q. apply one_line_app in O as [_ O]. apply quiet_app in Q as [_ Q].
  destruct (IH l' (x ++ w)) as (m & Lm & M); [lia|exact O|exact Q|exact U'|].
  exists (S m). split; [lia|]. intros f d. cbn [Nat.add skip_to_endif]. rewrite NT, !Qw by (cbn; tauto). cbn [orb].
  rewrite eof_here. replace (match l' ++ LF :: z with [] => true | _ => false end) with false by (destruct l'; reflexivity).
  rewrite M, E, <- !app_assoc. reflexivity.
Qed.

(** directive lines *)
Lemma expr_not_space c : expr_byte c = true -> ~ In c ((" "%char) :: map ascii_of_nat [9; 10; 12; 13]).
Proof. intro H. apply in_list_not. destruct c as [[] [] [] [] [] [] [] []]; vm_compute in *; congruence. Qed.
Lemma directive_tok plugins x name s z : In name [$"include"; $"ifdef"; $"ifndef"; $"endif"; $"ifeval"; $"asciidorkinclude"] -> all_of expr_byte s ->
  next_tok plugins (here x ((name ++ $"::") ++ s ++ $"[]" ++ LF :: z)) =
    Ret (located 0 (mkToken Directive (length x + 0) (length x + length (name ++ $"::") + 0) (name ++ $"::")), here (x ++ name ++ $"::") (s ++ $"[]" ++ LF :: z)).
Proof.
  intros I A. apply next_here. destruct s as [|c s].
  - cbn [app b list_ascii_of_string]. apply (recognise_directive plugins x name "["%char ("]"%char :: LF :: z) 0 I); [apply in_list_not; reflexivity|cbn; lia].
  - cbn [app]. apply (recognise_directive plugins x name c _ 0 I).
    + inversion A as [|? ? C]; subst. apply expr_not_space, C.
    + rewrite app_length. cbn. lia.
Qed.
Lemma two_tokens plugins s ks : plain_plugins plugins -> Forall (fun k => lexeme_of plugins (k_kind k) (k_lexeme k) /\ k_lexeme k <> []) ks ->
  source_of ks = s ++ $"[]" -> 2 <= length ks.
Proof.
  intros PL F E. destruct ks as [|k [|k' ks]]; [destruct s; discriminate| |cbn; lia].
  exfalso. inversion F as [|? ? [L _] _]; subst. unfold source_of in E. cbn in E. rewrite app_nil_r in E.
  assert (I : In "["%char (k_lexeme k)) by (rewrite E; apply in_or_app; right; left; reflexivity).
  apply (bracket_lexeme plugins _ _ PL L) in I. rewrite I in E. apply (f_equal (@length _)) in E. rewrite app_length in E. cbn in E. lia.
Qed.
Lemma expr_no_white s w : all_of expr_byte s -> In w white -> find_sub w s = None.
Proof.
  intros A I. destruct (find_sub w s) as [i|] eqn:E; [|reflexivity]. destruct (find_sub_spec _ _ _ E) as (a & z & -> & _).
  exfalso. destruct (white_head w I) as (c & r & ->). apply Forall_app in A as [_ A]. apply Forall_app in A as [A _]. inversion A as [|? ? C]; subst.
  clear -I C. unfold white in I. vm_compute in I. repeat (destruct I as [I|I]; [injection I as <- _; vm_compute in C; discriminate|]). destruct I.
Qed.
Lemma ends_with_app s p : ends_with (s ++ p) p = true.
Proof.
  unfold ends_with. rewrite rev_app_distr. apply starts_with_spec. eexists. reflexivity.
Qed.
Lemma endif_of s ks k : all_of expr_byte s -> is_directive k = true -> k_lexeme k = $"endif::" -> source_of ks = s ++ $"[]" -> 2 <= length ks ->
  endif_target (k :: ks) = Some s.
Proof.
  intros A D L S0 N. unfold endif_target. rewrite D, L, bytes_eqb_refl. replace (3 <=? length (k :: ks)) with true by (symmetry; apply Nat.leb_le; cbn; lia).
  cbn [andb]. change (source_of (k :: ks)) with (k_lexeme k ++ source_of ks). rewrite L, S0.
  cbn [app b list_ascii_of_string skipn]. rewrite ends_with_app. rewrite app_length. cbn [length].
  replace (length s + 2 - 2) with (length s) by lia. rewrite firstn_pre.
  match goal with |- (if ?x then _ else _) = _ => replace x with false; [reflexivity|symmetry] end.
  apply not_true_iff_false. intro H. apply existsb_exists in H as (w & I & H). rewrite (expr_no_white s w A I) in H. discriminate.
Qed.
Lemma close_tokens plugins x s z fuel : plain_plugins plugins -> all_of expr_byte s -> utf8 z -> length (s ++ $"[]") < fuel ->
  exists ks, read_tokens plugins fuel (here x (s ++ $"[]" ++ LF :: z)) = Ret (ks, here (x ++ s ++ $"[]") (LF :: z)) /\
    source_of ks = s ++ $"[]" /\ 2 <= length ks.
Proof.
  intros PL A U F. destruct (line_tokens plugins z PL (length (s ++ $"[]")) (s ++ $"[]") x fuel) as (ks & R & S0 & FA).
  - lia.
  - apply tail_line, A.
  - apply utf8_app; [apply utf8_app; [apply expr_utf8, A|apply is_utf8_spec; reflexivity]|]. apply (utf8_app [LF]); [apply is_utf8_spec; reflexivity|exact U].
  - exact F.
  - rewrite <- app_assoc in R. exists ks. repeat split; auto. eapply two_tokens; eauto.
Qed.

(** ** whole items *)
Lemma item_induction (P : item -> Prop) : (forall l, P (Line l)) ->
  (forall neg any long names body, Forall P body -> P (Cond neg any long names body)) -> forall i, P i.
Proof.
  intros HL HC. fix IH 1. intros [l|neg any long names body]; [apply HL|]. apply HC. induction body as [|i r R]; constructor; [apply IH|exact R].
Qed.
Lemma proper_all body : (fix all (l : list item) : Prop := match l with [] => True | x :: r => proper x /\ all r end) body <-> Forall proper body.
Proof. induction body as [|i r IH]; split; intro H; try constructor; try (inversion H; subst); try tauto; apply IH; assumption. Qed.
Lemma written_cons i r : written (i :: r) = written [i] ++ written r.
Proof. unfold written. cbn [flat_map]. rewrite app_nil_r, flat_map_app. reflexivity. Qed.
Lemma written_line l : written [Line l] = l ++ [newline].
Proof. unfold written. cbn. rewrite app_nil_r. reflexivity. Qed.
Lemma written_cond neg any long names body :
  written [Cond neg any long names body] = opening neg any names ++ [newline] ++ written body ++ closing any long names ++ [newline].
Proof.
  unfold written. cbn [flat_map lines_of]. rewrite app_nil_r. cbn [flat_map]. rewrite flat_map_app. cbn [flat_map]. rewrite app_nil_r, <- !app_assoc. reflexivity.
Qed.
Definition target (any long : bool) (names : list bytes) : bytes := if long then expression any names else [].
Lemma target_bytes any long names : Forall attribute_name names -> all_of expr_byte (target any long names).
Proof. intro F. destruct long; [apply expression_bytes, F|constructor]. Qed.
Lemma utf8_nl z : utf8 z -> utf8 (LF :: z).
Proof. intro U. apply (utf8_app [LF]); [apply is_utf8_spec; reflexivity|exact U]. Qed.
Lemma opening_utf8 neg any names : Forall attribute_name names -> utf8 (opening neg any names).
Proof.
  intro F. unfold opening. apply utf8_app; [destruct neg; apply is_utf8_spec; reflexivity|].
  apply utf8_app; [apply expr_utf8, expression_bytes, F|apply is_utf8_spec; reflexivity].
Qed.
Lemma closing_utf8 any long names : Forall attribute_name names -> utf8 (closing any long names).
Proof.
  intro F. unfold closing. apply utf8_app; [apply is_utf8_spec; reflexivity|].
  apply utf8_app; [apply expr_utf8, target_bytes, F|apply is_utf8_spec; reflexivity].
Qed.
Lemma written_utf8_one i : proper i -> utf8 (written [i]).
Proof.
  induction i as [l|neg any long names body IH] using item_induction; intro P.
  - rewrite written_line. apply utf8_app; [apply P|apply is_utf8_spec; reflexivity].
  - destruct P as (_ & F & _ & _ & _ & P). apply proper_all in P. rewrite written_cond.
    apply utf8_app; [apply opening_utf8, F|]. apply utf8_app; [apply is_utf8_spec; reflexivity|].
    apply utf8_app; [|apply utf8_app; [apply closing_utf8, F|apply is_utf8_spec; reflexivity]].
    clear F. induction body as [|i r IHr]; [apply is_utf8_spec; reflexivity|]. inversion IH; subst. inversion P; subst.
    rewrite written_cons. apply utf8_app; auto.
Qed.
Lemma written_utf8 body : Forall proper body -> utf8 (written body).
Proof.
  induction 1 as [|i r P F IH]; [apply is_utf8_spec; reflexivity|]. rewrite written_cons. apply utf8_app; [apply written_utf8_one, P|exact IH].
Qed.
Lemma nd_endif s lo : names_directive (mkRtok Directive s lo) ($"endif::") = bytes_eqb s ($"endif::").
Proof. reflexivity. Qed.

Definition passes plugins (T z : bytes) : Prop := forall x, exists m, m <= length T /\
  forall f d, 1 <= d -> skip_to_endif plugins (m + f) d (here x (T ++ z)) = skip_to_endif plugins f d (here (x ++ T) z).
Lemma passes_app plugins S0 T z : passes plugins S0 (T ++ z) -> passes plugins T z -> passes plugins (S0 ++ T) z.
Proof.
  intros A B x. destruct (A x) as (m & Lm & M), (B (x ++ S0)) as (m' & Lm' & M'). exists (m + m'). rewrite app_length. split; [lia|].
  intros f d D. rewrite <- app_assoc, <- Nat.add_assoc, M, M', <- app_assoc by exact D. reflexivity.
Qed.
Lemma skip_line' plugins z x l : plain_plugins plugins -> z <> [] -> one_line l -> quiet l -> utf8 l -> utf8 z ->
  exists m, m <= S (length l) /\ forall f d, skip_to_endif plugins (m + f) d (here x (l ++ LF :: z)) = skip_to_endif plugins f d (here (x ++ l ++ [LF]) z).
Proof.
  intros PL NZ O Q U Uz. apply (skip_line plugins z PL NZ (length l)); auto. apply utf8_app; [exact U|apply utf8_nl, Uz].
Qed.
Lemma skip_open plugins z x neg any names : plain_plugins plugins -> z <> [] -> utf8 z -> Forall attribute_name names ->
  exists m, m <= length (opening neg any names ++ [LF]) /\ forall f d,
    skip_to_endif plugins (m + f) d (here x ((opening neg any names ++ [LF]) ++ z)) = skip_to_endif plugins f (d + 1) (here (x ++ opening neg any names ++ [LF]) z).
Proof.
  intros PL NZ Uz F. pose proof (expression_bytes any names F) as A. set (s := expression any names) in *.
  set (name := if neg then $"ifndef" else $"ifdef").
  assert (E : opening neg any names = (name ++ $"::") ++ s ++ $"[]") by (unfold opening, name; destruct neg; reflexivity).
  destruct (skip_line' plugins z (x ++ name ++ $"::") (s ++ $"[]") PL NZ) as (m & Lm & M).
  - apply tail_line, A.
  - apply quiet_no_colon. intro I. apply in_app_or in I as [I|I]; [revert I; apply (expr_free _ _ A); cbn; tauto|].
    cbn in I. destruct I as [I|[I|[]]]; discriminate.
  - apply utf8_app; [apply expr_utf8, A|apply is_utf8_spec; reflexivity].
  - exact Uz.
  - exists (S m). split; [rewrite E, !app_length in *; cbn in *; lia|]. intros f d. rewrite E. cbn [Nat.add skip_to_endif].
    rewrite <- !app_assoc. cbn [app]. pose proof (directive_tok plugins x name s z) as DT. rewrite <- !app_assoc in DT. cbn [app] in DT.
    rewrite DT; [|unfold name; destruct neg; cbn; tauto|exact A].
    assert (N1 : forall t, names_directive (located 0 t) ($"endif::") = match t_kind t with Directive => bytes_eqb (t_lexeme t) ($"endif::") | _ => false end)
      by (intro t; destruct t as [k ? ? ?]; destruct k; reflexivity).
    unfold names_directive, is_directive. cbn [located k_kind k_lexeme t_kind t_lexeme andb].
    replace (bytes_eqb (name ++ $"::") ($"endif::")) with false by (unfold name; destruct neg; reflexivity).
    replace (bytes_eqb (name ++ $"::") ($"ifdef::") || bytes_eqb (name ++ $"::") ($"ifndef::")) with true by (unfold name; destruct neg; reflexivity).
    specialize (M f (d + 1)). rewrite <- !app_assoc in M. cbn [app] in M. rewrite M. reflexivity.
Qed.
Lemma skip_close plugins z x any long names f d : plain_plugins plugins -> utf8 z -> Forall attribute_name names ->
  skip_to_endif plugins (S f) d (here x (closing any long names ++ LF :: z)) =
    if d =? 1 then Ret (Some (true, here (x ++ closing any long names ++ [LF]) z))
    else skip_to_endif plugins f (d - 1) (here (x ++ closing any long names) (LF :: z)).
Proof.
  intros PL Uz F. pose proof (target_bytes any long names F) as A. change (closing any long names) with ($"endif::" ++ target any long names ++ $"[]"). set (s := target any long names) in *.
  cbn [skip_to_endif]. pose proof (directive_tok plugins x ($"endif") s z) as DT.
  change ($"endif" ++ $"::") with ($"endif::") in DT. rewrite <- !app_assoc in *.
  rewrite DT; [clear DT|cbn; tauto|exact A]. unfold names_directive at 1. cbn [located k_kind k_lexeme t_kind t_lexeme is_directive].
  rewrite bytes_eqb_refl. cbn [andb]. rewrite left_here.
  destruct (close_tokens plugins (x ++ $"endif::") s z (S (length (s ++ $"[]" ++ LF :: z))) PL A Uz) as (ks & R & S0 & N).
  { rewrite !app_length. cbn. lia. }
  rewrite R. rewrite (endif_of s ks _ A) by (reflexivity || assumption).
  rewrite newline_here, <- !app_assoc. reflexivity.
Qed.
Lemma skip_item plugins : plain_plugins plugins -> forall i, proper i -> forall z, z <> [] -> utf8 z -> passes plugins (written [i]) z.
Proof.
  intro PL. induction i as [l|neg any long names body IH] using item_induction; intros P z NZ Uz x.
  - rewrite written_line. destruct P as (Ul & N & R & Q & _). destruct (skip_line' plugins z x l PL NZ (conj N R) Q Ul Uz) as (m & Lm & M).
    exists m. rewrite app_length. split; [cbn; lia|]. intros f d _. rewrite <- app_assoc. apply M.
  - destruct P as (_ & F & _ & _ & _ & P). apply proper_all in P. rewrite written_cond.
    set (Z := closing any long names ++ [newline] ++ z).
    assert (NZ' : Z <> []) by (unfold Z, closing; discriminate). assert (UZ : utf8 Z) by (unfold Z; apply utf8_app; [apply closing_utf8, F|apply utf8_nl, Uz]).
    assert (B : passes plugins (written body) Z).
    { clear x. induction body as [|i r IHr]; [intro x; exists 0; split; [cbn; lia|]; intros f d _; rewrite app_nil_r; reflexivity|].
      inversion IH; subst. inversion P; subst. rewrite written_cons. apply passes_app; [|apply IHr; assumption].
      apply H1; [assumption|destruct (written r); [exact NZ'|discriminate]|apply utf8_app; [apply written_utf8; assumption|exact UZ]]. }
    assert (NB : written body ++ Z <> []) by (destruct (written body); [exact NZ'|discriminate]).
    assert (UB : utf8 (written body ++ Z)) by (apply utf8_app; [apply written_utf8, P|exact UZ]).
    destruct (skip_open plugins (written body ++ Z) x neg any names PL NB UB F) as (m1 & L1 & M1).
    destruct (B (x ++ opening neg any names ++ [LF])) as (m2 & L2 & M2).
    exists (m1 + (m2 + 2)). split.
    { rewrite !app_length in *. cbn [length] in *. unfold closing. rewrite !app_length. cbn [length b list_ascii_of_string]. lia. }
    intros f d D. rewrite <- !app_assoc. specialize (M1 (m2 + 2 + f) d). rewrite <- !app_assoc in M1. rewrite <- !Nat.add_assoc.
    rewrite <- !Nat.add_assoc in M1. change ([newline] ++ written body ++ closing any long names ++ [newline] ++ z) with ([LF] ++ written body ++ Z). rewrite M1.
    specialize (M2 (2 + f) (d + 1)). rewrite M2 by lia. unfold Z.
    change (2 + f) with (S (S f)). rewrite (skip_close plugins z _ any long names (S f) (d + 1) PL Uz F).
    replace (d + 1 =? 1) with false by (symmetry; apply Nat.eqb_neq; lia). replace (d + 1 - 1) with d by lia.
    cbn [skip_to_endif]. rewrite newline_tok. unfold names_directive, is_directive. cbn [located k_kind t_kind andb orb]. rewrite eof_here.
    destruct z; [congruence|]. rewrite <- !app_assoc. reflexivity.
Qed.
Lemma skip_items plugins z : plain_plugins plugins -> z <> [] -> utf8 z -> forall body, Forall proper body -> passes plugins (written body) z.
Proof.
  intros PL NZ Uz body F. induction F as [|i r P F IH]; [intro x; exists 0; split; [cbn; lia|]; intros f d _; rewrite app_nil_r; reflexivity|].
  rewrite written_cons. apply passes_app; [|exact IH].
  apply skip_item; auto; [destruct (written r); [exact NZ|discriminate]|apply utf8_app; [apply written_utf8; assumption|exact Uz]].
Qed.

(** ** conditions *)
Lemma name_free c n : attribute_name n -> In c ($"[],+: " ++ [LF; CR]) -> ~ In c n.
Proof. intros [_ A] I J. rewrite Forall_forall in A. exact (name_not c (A _ J) I). Qed.
Lemma flat_one c ns : Forall (fun n => ~ In c n) ns -> flat_map (split_byte c) ns = ns.
Proof. induction 1 as [|n r N F IH]; [reflexivity|]. cbn [flat_map]. rewrite split_byte_one, IH by exact N. reflexivity. Qed.
Lemma names_free c names : Forall attribute_name names -> In c ($"[],+: " ++ [LF; CR]) -> Forall (fun n => ~ In c n) names.
Proof. intros F I. eapply Forall_impl; [|exact F]. intros n N. apply (name_free c n N I). Qed.
Lemma join_free c s names : c <> s -> Forall (fun n => ~ In c n) names -> ~ In c (join_byte s names).
Proof.
  intros D. induction 1 as [|n r N F IH]; [intros []|]. destruct r as [|m r]; [exact N|].
  change (join_byte s (n :: m :: r)) with (n ++ s :: join_byte s (m :: r)). intro I. apply in_app_or in I as [I|[I|I]]; [exact (N I)|congruence|exact (IH I)].
Qed.
Lemma names_of_expression any names : names <> [] -> Forall attribute_name names -> names_of (expression any names) = names.
Proof.
  intros NE F. unfold names_of, expression. destruct any.
  - rewrite split_join; [|exact NE|apply names_free; [exact F|cbn; tauto]]. apply flat_one, names_free; [exact F|cbn; tauto].
  - rewrite split_byte_one by (apply join_free; [discriminate|apply names_free; [exact F|cbn; tauto]]). cbn [flat_map]. rewrite app_nil_r.
    apply split_join; [exact NE|apply names_free; [exact F|cbn; tauto]].
Qed.
Lemma contains_byte_In c s : contains_byte c s = true <-> In c s.
Proof. unfold contains_byte. rewrite existsb_exists. split; [intros (x & I & E); apply Ascii.eqb_eq in E; congruence|intro I; exists c; split; [exact I|apply Ascii.eqb_refl]]. Qed.
Lemma comma_expression any names : Forall attribute_name names -> contains_byte ","%char (expression any names) = any && (2 <=? length names).
Proof.
  intros F. pose proof (names_free ","%char names F) as NF. specialize (NF ltac:(cbn; tauto)).
  destruct (contains_byte ","%char (expression any names)) eqn:E.
  - apply contains_byte_In in E. unfold expression in E. destruct any; [|exfalso; revert E; apply join_free; [discriminate|exact NF]].
    destruct names as [|n [|m r]]; [destruct E| |reflexivity]. inversion NF; subst. contradiction.
  - destruct any; [|reflexivity]. destruct names as [|n [|m r]]; try reflexivity. exfalso. apply not_true_iff_false in E. apply E, contains_byte_In.
    unfold expression. change (join_byte ","%char (n :: m :: r)) with (n ++ ","%char :: join_byte ","%char (m :: r)). apply in_or_app. right. left. reflexivity.
Qed.
Lemma set_spec {A} (E : env A) a n : is_set (get E a n) = true <-> set E a n.
Proof.
  unfold set, is_set. destruct (get E a n) as [[s|v]|]; [| |split; [discriminate|intros (? & ? & _); discriminate]].
  - split; [intros _; eexists; split; [reflexivity|discriminate]|reflexivity].
  - split; [intros ->; eexists; split; [reflexivity|discriminate]|]. intros (w & W & N). injection W as <-. destruct v; congruence.
Qed.
Lemma fold_or (f : bytes -> bool) ns acc : fold_left (fun cur n => if negb true && negb cur && true then false else if true && cur then true else f n) ns acc = acc || existsb f ns.
Proof. revert acc. induction ns as [|n r IH]; intro acc; cbn [fold_left existsb]; [rewrite orb_false_r; reflexivity|]. rewrite IH. destruct acc; reflexivity. Qed.
Lemma fold_or' (f : bytes -> bool) ns acc : fold_left (fun cur n => if negb true && negb cur && false then false else if true && cur then true else f n) ns acc = acc || existsb f ns.
Proof. revert acc. induction ns as [|n r IH]; intro acc; cbn [fold_left existsb]; [rewrite orb_false_r; reflexivity|]. rewrite IH. destruct acc; reflexivity. Qed.
Lemma fold_and (f : bytes -> bool) ns acc : fold_left (fun cur n => if negb false && negb cur && true then false else if false && cur then true else f n) ns acc = acc && forallb f ns.
Proof. revert acc. induction ns as [|n r IH]; intro acc; cbn [fold_left forallb]; [rewrite andb_true_r; reflexivity|]. rewrite IH. destruct acc; reflexivity. Qed.
Lemma evaluate_spec {A} (E : env A) a neg any names : names <> [] -> Forall attribute_name names -> (neg = true -> any = true \/ length names = 1) ->
  (evaluate_ifdef E a (negb neg) (expression any names) = true <-> holds E a neg any names).
Proof.
  intros NE F NP. unfold evaluate_ifdef. rewrite names_of_expression, comma_expression by assumption.
  set (f := fun n => is_set (get E a n)).
  assert (EX : existsb f names = true <-> exists n, In n names /\ set E a n).
  { rewrite existsb_exists. split; intros (n & I & H); exists n; (split; [exact I|apply set_spec, H]). }
  assert (ALL : forallb f names = true <-> forall n, In n names -> set E a n).
  { rewrite forallb_forall. split; intros H n I; apply set_spec, H, I. }
  destruct names as [|n [|m r]]; [congruence| |].
  - cbn [length Nat.leb]. rewrite andb_false_r.
    assert (ONE : (if any then exists n0, In n0 [n] /\ set E a n0 else forall n0, In n0 [n] -> set E a n0) <-> set E a n).
    { destruct any; [split; [intros (n0 & [<-|[]] & H); exact H|intro H; exists n; split; [left; reflexivity|exact H]]|].
      split; [intro H; apply H; left; reflexivity|intros H n0 [<-|[]]; exact H]. }
    unfold holds. cbv zeta. cbn [fold_left negb andb]. destruct neg; cbn [negb]; rewrite ONE, <- set_spec; destruct (is_set (get E a n)); cbn [negb]; clear; intuition congruence.
  - cbn [length Nat.leb]. rewrite andb_true_r. unfold holds. cbv zeta. destruct any.
    + destruct neg; cbn [negb].
      * rewrite (fold_or' f). cbn [orb]. rewrite <- EX. destruct (existsb f _); cbn; intuition congruence.
      * rewrite (fold_or f). cbn [orb]. exact EX.
    + destruct neg; [destruct (NP eq_refl); discriminate|]. cbn [negb]. rewrite (fold_and f). cbn [andb]. exact ALL.
Qed.

(** ** one pass *)
Lemma split_bracket s r : ~ In "["%char s -> at_bracket (s ++ "["%char :: r) = Some (s, r).
Proof.
  intro N. unfold at_bracket. pose proof (split_once_spec ($"[") (s ++ "["%char :: r)) as SP. destruct (split_once _ _) as [[a z]|].
  - destruct SP as [E M]. specialize (M s r eq_refl). cbn [app b list_ascii_of_string] in E.
    assert (EL : exists q, s = a ++ q) by (exists (skipn (length a) s); assert (X := f_equal (firstn (length a)) E);
      rewrite firstn_app, firstn_pre in X; replace (length a - length s) with 0 in X by lia; rewrite app_nil_r in X; rewrite <- (firstn_skipn (length a) s) at 1; rewrite X; reflexivity).
    destruct EL as [[|c q] ->]; [rewrite app_nil_r in *; apply app_inv_head in E; injection E as ->; reflexivity|].
    exfalso. rewrite <- app_assoc in E. apply app_inv_head in E. injection E as -> _. apply N, in_or_app. right. left. reflexivity.
  - exfalso. apply (SP s r). reflexivity.
Qed.
Lemma chars_ascii s : all_of expr_byte s -> chars s = length s.
Proof.
  induction 1 as [|c s C _ IH]; [reflexivity|]. unfold chars in *. cbn [filter].
  replace (continuation c) with false by (symmetry; clear -C; destruct c as [[] [] [] [] [] [] [] []]; vm_compute in *; congruence). cbn. f_equal. exact IH.
Qed.
Lemma ifdef_parts_spec s : all_of expr_byte s -> 2 <= length s -> ifdef_parts (s ++ $"[]") = Some (s, []).
Proof.
  intros A L. unfold ifdef_parts. cbn [b list_ascii_of_string]. rewrite split_bracket by (apply (expr_free _ _ A); cbn; tauto).
  rewrite chars_ascii by exact A. replace (2 <=? length s) with true by (symmetry; apply Nat.leb_le, L).
  replace (existsb (ends_with s) white) with false; [reflexivity|]. symmetry. apply not_true_iff_false. intro H.
  apply existsb_exists in H as (w & I & H). apply ends_with_spec in H as [q ->].
  pose proof (expr_no_white (q ++ w) w A I) as N. apply (find_sub_none _ _ N q []). rewrite app_nil_r. reflexivity.
Qed.
Lemma skip_fuel_here {A} (p : pstate A) x y : lex p = here x y -> S (S (left_over (lex p))) = S (S (length y)).
Proof. intros ->. rewrite left_here. reflexivity. Qed.

Section Passes.
Context {A : Type} (E : env A) (plugins : list bytes) (PL : plain_plugins plugins).
Definition st (a : A) (k : list bytes) (x y : bytes) (r : list report) : pstate A := mkP a k (here x y) r.

Lemma pass_line a k r x l z : ordinary l -> utf8 z -> exists ks, source_of ks = l /\
  forall again, pass again E plugins (st a k x (l ++ LF :: z) r) = Ret (Deliver ks (st (upd E a l) k (x ++ l ++ [LF]) z r)).
Proof.
  intros (U & N & R & Q & S0) Uz. unfold pass, st. cbn [lex attrs stk reports].
  destruct (line_tokens plugins z PL (length l) l x (S (length (l ++ LF :: z)))) as (ks & RT & SO & FA);
    [lia|split; assumption|apply utf8_app; [exact U|apply utf8_nl, Uz]|rewrite app_length; lia|].
  exists ks. split; [exact SO|]. intro again. rewrite eof_here. replace (match l ++ LF :: z with [] => true | _ => false end) with false by (destruct l; reflexivity).
  rewrite left_here, RT, newline_here. rewrite <- app_assoc.
  destruct ks as [|t ks]; [rewrite SO; reflexivity|].
  assert (PRE : exists q, l = k_lexeme t ++ q) by (exists (source_of ks); symmetry; exact SO).
  destruct t as [kd w lo]. cbn [k_lexeme] in PRE.
  rewrite !(quiet_names l kd w lo) by (auto; cbn; tauto).
  assert (NS : forall s, In s [$"ifeval::"; $"asciidorkinclude::"] -> names_directive (mkRtok kd w lo) s = false).
  { intros s I. unfold names_directive. cbn [k_lexeme]. destruct (bytes_eqb w s) eqn:EW; [|apply andb_false_r].
    apply bytes_eqb_eq in EW. subst w. exfalso. specialize (S0 s I). apply not_true_iff_false in S0. apply S0. apply starts_with_spec. destruct PRE as [q ->]. exists q. reflexivity. }
  rewrite !NS by (cbn; tauto). rewrite SO. reflexivity.
Qed.
(** a directive line's tokens *)
Lemma directive_tokens name s x z fuel : In name [$"ifdef"; $"ifndef"; $"endif"] -> all_of expr_byte s -> utf8 z ->
  length ((name ++ $"::") ++ s ++ $"[]") < fuel ->
  exists lo ks, read_tokens plugins fuel (here x ((name ++ $"::") ++ s ++ $"[]" ++ LF :: z)) =
      Ret (mkRtok Directive (name ++ $"::") lo :: ks, here (x ++ (name ++ $"::") ++ s ++ $"[]") (LF :: z)) /\
    source_of ks = s ++ $"[]" /\ 2 <= length ks.
Proof.
  intros I As Uz F. destruct fuel as [|fuel]; [lia|]. cbn [read_tokens].
  assert (NN : exists c r, (name ++ $"::") ++ s ++ $"[]" ++ LF :: z = c :: r /\ Ascii.eqb c LF || Ascii.eqb c CR = false).
  { destruct I as [<-|[<-|[<-|[]]]]; cbn; eauto. }
  assert (AN : at_newline (here x ((name ++ $"::") ++ s ++ $"[]" ++ LF :: z)) = Ret false).
  { destruct NN as (c & r & -> & NC). unfold at_newline. rewrite peek_here. cbn [hd_error is]. rewrite NC. reflexivity. }
  assert (AE : is_eof (here x ((name ++ $"::") ++ s ++ $"[]" ++ LF :: z)) = Ret false).
  { destruct NN as (c & r & -> & NC). rewrite eof_here. reflexivity. }
  rewrite AN, AE. rewrite directive_tok; [|cbn in *; tauto|exact As].
  destruct (close_tokens plugins (x ++ name ++ $"::") s z fuel PL As Uz) as (ks & R & SO & N).
  { rewrite app_length in F. assert (0 < length (name ++ $"::")) by (destruct I as [<-|[<-|[<-|[]]]]; cbn; lia). lia. }
  rewrite R. eexists _, ks. rewrite <- !app_assoc. split; [reflexivity|split; assumption].
Qed.
Lemma nd_self w lo s : names_directive (mkRtok Directive w lo) s = bytes_eqb w s.
Proof. reflexivity. Qed.
Lemma directive_line {B} name s z (f g : B) : match ((name ++ $"::") ++ s ++ $"[]" ++ LF :: z) with [] => f | _ => g end = g.
Proof. destruct name; reflexivity. Qed.
Lemma pass_open neg any names a k r x z : names <> [] -> Forall attribute_name names -> 2 <= length (expression any names) -> utf8 z ->
  evaluate_ifdef E a (negb neg) (expression any names) = true ->
  forall again, pass again E plugins (st a k x (opening neg any names ++ LF :: z) r) =
    Ret (Next (st a (expression any names :: k) (x ++ opening neg any names ++ [LF]) z r)).
Proof.
  intros NE F L Uz EV again. pose proof (expression_bytes any names F) as As. set (s := expression any names) in *.
  set (name := if neg then $"ifndef" else $"ifdef").
  assert (EO : opening neg any names = (name ++ $"::") ++ s ++ $"[]") by (unfold opening, name; destruct neg; reflexivity).
  destruct (directive_tokens name s x z (S (length (opening neg any names ++ LF :: z)))) as (lo & ks & RT & SO & N);
    [unfold name; destruct neg; cbn; tauto|exact As|exact Uz|rewrite EO, (app_length _ (LF :: z)); lia|].
  unfold pass, st. cbn [lex attrs stk reports].
  rewrite eof_here, left_here. rewrite EO in *. rewrite <- !app_assoc in *. cbn [app] in *.
  replace (match name ++ $"::" ++ s ++ $"[]" ++ LF :: z with [] => true | _ => false end) with false by (unfold name; destruct neg; reflexivity).
  rewrite RT, newline_here, !nd_self. rewrite <- !app_assoc. cbn [app].
  assert (DI : forall q, attrs q = a -> do_ifdef again E plugins (negb neg) (if neg then 8 else 7) (mkRtok Directive (name ++ $"::") lo :: ks) q =
    Ret (Next (mkP (attrs q) (s :: stk q) (lex q) (reports q)))).
  { intros q Q. unfold do_ifdef.
    change (source_of (mkRtok Directive (name ++ $"::") lo :: ks)) with ((name ++ $"::") ++ source_of ks). rewrite SO.
    replace (skipn (if neg then 8 else 7) ((name ++ $"::") ++ s ++ $"[]")) with (s ++ $"[]") by (unfold name; destruct neg; reflexivity).
    rewrite (ifdef_parts_spec s As L). cbn [attrs]. rewrite Q, EV. reflexivity. }
  destruct neg; unfold name in *; cbn [negb] in *.
  - replace (bytes_eqb ($"ifndef" ++ $"::") ($"ifdef::")) with false by reflexivity. replace (bytes_eqb ($"ifndef" ++ $"::") ($"ifndef::")) with true by reflexivity.
    rewrite DI by reflexivity. reflexivity.
  - replace (bytes_eqb ($"ifdef" ++ $"::") ($"ifdef::")) with true by reflexivity. rewrite DI by reflexivity. reflexivity.
Qed.
Lemma pass_off neg any long names body a k r x z : names <> [] -> Forall attribute_name names -> 2 <= length (expression any names) ->
  evaluate_ifdef E a (negb neg) (expression any names) = false -> Forall proper body -> utf8 z ->
  forall again, pass again E plugins (st a k x (written [Cond neg any long names body] ++ z) r) =
    Ret (Next (st a (expression any names :: k) (x ++ written [Cond neg any long names body]) z r)).
Proof.
  intros NE F L EV P Uz again. pose proof (expression_bytes any names F) as As. rewrite written_cond.
  set (Z := closing any long names ++ LF :: z).
  assert (NZ : Z <> []) by (unfold Z, closing; discriminate). assert (UZ : utf8 Z) by (unfold Z; apply utf8_app; [apply closing_utf8, F|apply utf8_nl, Uz]).
  assert (UB : utf8 (written body ++ Z)) by (apply utf8_app; [apply written_utf8, P|exact UZ]).
  pose proof (directive_tokens (if neg then $"ifndef" else $"ifdef") (expression any names) x (written body ++ Z)
    (S (length (opening neg any names ++ LF :: written body ++ Z)))) as DT.
  set (s := expression any names) in *. set (name := if neg then $"ifndef" else $"ifdef") in *.
  assert (EO : opening neg any names = (name ++ $"::") ++ s ++ $"[]") by (unfold opening, name; destruct neg; reflexivity).
  destruct DT as (lo & ks & RT & SO & N); [unfold name; destruct neg; cbn; tauto|exact As|exact UB|rewrite EO, (app_length _ (LF :: written body ++ Z)); lia|].
  replace ((opening neg any names ++ [newline] ++ written body ++ closing any long names ++ [newline]) ++ z) with (opening neg any names ++ LF :: written body ++ Z)
    by (unfold Z; rewrite <- !app_assoc; reflexivity).
  unfold pass, st. cbn [lex attrs stk reports]. rewrite eof_here, left_here.
  replace (match opening neg any names ++ LF :: written body ++ Z with [] => true | _ => false end) with false by (unfold opening; destruct neg; reflexivity).
  rewrite EO in *. rewrite <- !app_assoc in *. cbn [app] in *. rewrite RT, newline_here, !nd_self. rewrite <- !app_assoc. cbn [app].
  assert (DI : forall q, attrs q = a -> lex q = here (x ++ name ++ $"::" ++ s ++ $"[]" ++ [LF]) (written body ++ Z) ->
    do_ifdef again E plugins (negb neg) (if neg then 8 else 7) (mkRtok Directive (name ++ $"::") lo :: ks) q =
    Ret (Next (mkP (attrs q) (s :: stk q) (here (x ++ name ++ $"::" ++ s ++ $"[]" ++ [LF] ++ written body ++ closing any long names ++ [LF]) z) (reports q)))).
  { intros q Qa Q. unfold do_ifdef.
    change (source_of (mkRtok Directive (name ++ $"::") lo :: ks)) with ((name ++ $"::") ++ source_of ks). rewrite SO.
    replace (skipn (if neg then 8 else 7) ((name ++ $"::") ++ s ++ $"[]")) with (s ++ $"[]") by (unfold name; destruct neg; reflexivity).
    rewrite (ifdef_parts_spec s As L). cbn [attrs lex stk reports]. rewrite Qa, EV. rewrite Q, left_here.
    destruct (skip_items plugins Z PL NZ UZ body P (x ++ name ++ $"::" ++ s ++ $"[]" ++ [LF])) as (m & Lm & M).
    replace (S (S (length (written body ++ Z)))) with (m + S (S (length (written body ++ Z)) - m)) by (rewrite app_length in *; lia).
    rewrite M by lia. unfold Z. rewrite (skip_close plugins z _ any long names _ 1 PL Uz F). cbn [Nat.eqb]. rewrite <- !app_assoc. reflexivity. }
  destruct neg; unfold name in *; cbn [negb] in *.
  - replace (bytes_eqb ($"ifndef" ++ $"::") ($"ifdef::")) with false by reflexivity. replace (bytes_eqb ($"ifndef" ++ $"::") ($"ifndef::")) with true by reflexivity.
    rewrite DI by reflexivity. reflexivity.
  - replace (bytes_eqb ($"ifdef" ++ $"::") ($"ifdef::")) with true by reflexivity. rewrite DI by reflexivity. reflexivity.
Qed.
Lemma pass_close any long names a e k r x z : Forall attribute_name names -> (long = true -> e = expression any names) -> utf8 z ->
  forall again, pass again E plugins (st a (e :: k) x (closing any long names ++ LF :: z) r) =
    Ret (Next (st a (e :: k) (x ++ closing any long names ++ [LF]) z r)).
Proof.
  intros F LG Uz again. pose proof (target_bytes any long names F) as As.
  change (closing any long names) with (($"endif" ++ $"::") ++ target any long names ++ $"[]"). set (s := target any long names) in *.
  destruct (directive_tokens ($"endif") s x z (S (length ((($"endif" ++ $"::") ++ s ++ $"[]") ++ LF :: z)))) as (lo & ks & RT & SO & N);
    [cbn; tauto|exact As|exact Uz|rewrite (app_length _ (LF :: z)); lia|].
  unfold pass, st. cbn [lex attrs stk reports]. rewrite eof_here, left_here.
  replace (match (($"endif" ++ $"::") ++ s ++ $"[]") ++ LF :: z with [] => true | _ => false end) with false by reflexivity.
  rewrite <- (app_assoc _ _ (LF :: z)). rewrite <- (app_assoc s _ (LF :: z)). rewrite <- (app_assoc _ _ (LF :: z)) in RT. rewrite <- (app_assoc s _ (LF :: z)) in RT.
  rewrite RT, newline_here, !nd_self.
  replace (bytes_eqb ($"endif" ++ $"::") ($"ifdef::")) with false by reflexivity. replace (bytes_eqb ($"endif" ++ $"::") ($"ifndef::")) with false by reflexivity.
  replace (bytes_eqb ($"endif" ++ $"::") ($"endif::")) with true by reflexivity.
  unfold do_endif. rewrite (endif_of s ks _ As) by (reflexivity || assumption). cbn [stk attrs lex reports].
  replace (match s with [] => false | _ => negb (bytes_eqb e s) end) with false.
  2: { unfold s, target in *. destruct long; [|reflexivity]. rewrite (LG eq_refl), bytes_eqb_refl. destruct (expression any names); reflexivity. }
  rewrite <- app_assoc. reflexivity.
Qed.

(** ** many passes *)
Inductive steps : pstate A -> list bytes -> pstate A -> Prop :=
| St_end p : steps p [] p
| St_line p l p1 out p2 : (forall f, pass (next_line E plugins (S f)) E plugins p = Ret (Deliver l p1)) -> left_over (lex p1) < left_over (lex p) ->
    steps p1 out p2 -> steps p (source_of l :: out) p2
| St_next p p1 out p2 : (forall f, pass (next_line E plugins (S f)) E plugins p = Ret (Next p1)) -> left_over (lex p1) < left_over (lex p) ->
    steps p1 out p2 -> steps p out p2.
Lemma steps_app p o1 p1 o2 p2 : steps p o1 p1 -> steps p1 o2 p2 -> steps p (o1 ++ o2) p2.
Proof. induction 1; intro H'; [exact H'|cbn; econstructor 2; eauto|econstructor 3; eauto]. Qed.

Lemma holds_dec a neg any names : names <> [] -> Forall attribute_name names -> (neg = true -> any = true \/ length names = 1) ->
  (holds E a neg any names -> evaluate_ifdef E a (negb neg) (expression any names) = true) /\
  (~ holds E a neg any names -> evaluate_ifdef E a (negb neg) (expression any names) = false).
Proof.
  intros NE F NP. pose proof (evaluate_spec E a neg any names NE F NP) as H. split; intro X; [apply H, X|].
  apply not_true_iff_false. intro Y. apply X, H, Y.
Qed.
Lemma kept_steps a is out a' : kept E a is out a' -> Forall proper is -> forall x k r z, utf8 z ->
  exists k', steps (st a k x (written is ++ z) r) out (st a' k' (x ++ written is) z r) /\ (k <> [] -> k' <> []) /\ (Forall leaf is -> k' = k).
Proof.
  induction 1 as [a|a l rest out a' K IH|a neg any long names body rest out1 a1 out2 a2 H K1 IH1 K2 IH2|a neg any long names body rest out a' H K IH];
    intros P x k r z Uz.
  - exists k. rewrite app_nil_r. repeat split; auto. constructor.
  - inversion P as [|? ? Pl Pr]; subst. rewrite written_cons, written_line.
    assert (Ur : utf8 (written rest ++ z)) by (apply utf8_app; [apply written_utf8, Pr|exact Uz]).
    destruct (IH Pr (x ++ l ++ [LF]) k r z Uz) as (k' & ST & NK & LF').
    destruct (pass_line a k r x l (written rest ++ z) Pl Ur) as (ks & SO & PS).
    exists k'. split; [|split; [exact NK|intro FL; apply LF'; inversion FL; assumption]]. rewrite <- SO at 2.
    replace (((l ++ [newline]) ++ written rest) ++ z) with (l ++ LF :: written rest ++ z) by (rewrite <- !app_assoc; reflexivity).
    eapply St_line; [intro; apply PS|unfold st; cbn [lex]; rewrite !left_here, (app_length l); cbn; lia|].
    rewrite app_assoc. rewrite <- !app_assoc in *. exact ST.
  - inversion P as [|? ? Pc Pr]; subst. destruct Pc as (NE & F & L & NP & LG & Pb). apply proper_all in Pb. rewrite written_cons, written_cond.
    assert (Ur : utf8 (written rest ++ z)) by (apply utf8_app; [apply written_utf8, Pr|exact Uz]).
    set (Z := closing any long names ++ LF :: written rest ++ z).
    assert (UZ : utf8 Z) by (unfold Z; apply utf8_app; [apply closing_utf8, F|apply utf8_nl, Ur]).
    assert (UB : utf8 (written body ++ Z)) by (apply utf8_app; [apply written_utf8, Pb|exact UZ]).
    destruct (holds_dec a neg any names NE F NP) as [HT _]. specialize (HT H).
    pose proof (pass_open neg any names a k r x (written body ++ Z) NE F L UB HT) as PO.
    destruct (IH1 Pb (x ++ opening neg any names ++ [LF]) (expression any names :: k) r Z UZ) as (k1 & ST1 & NK1 & LF1).
    destruct k1 as [|e k1]; [exfalso; apply NK1; [discriminate|reflexivity]|].
    assert (LG' : long = true -> e = expression any names) by (intro LT; specialize (LF1 (LG LT)); congruence).
    pose proof (pass_close any long names a1 e k1 r ((x ++ opening neg any names ++ [LF]) ++ written body) (written rest ++ z) F LG' Ur) as PC.
    destruct (IH2 Pr (((x ++ opening neg any names ++ [LF]) ++ written body) ++ closing any long names ++ [LF]) (e :: k1) r z Uz) as (k2 & ST2 & NK2 & LF2).
    exists k2. split; [|split; [intros _; apply NK2; discriminate|intro FL; inversion FL as [|? ? X]; subst; destruct X]].
    replace (((opening neg any names ++ [newline] ++ written body ++ closing any long names ++ [newline]) ++ written rest) ++ z)
      with (opening neg any names ++ LF :: written body ++ Z) by (unfold Z; rewrite <- !app_assoc; reflexivity).
    eapply St_next; [intro; apply PO|unfold st; cbn [lex]; rewrite !left_here, (app_length (opening _ _ _)); cbn [length]; lia|].
    eapply steps_app; [exact ST1|]. unfold Z. eapply St_next; [intro; apply PC|unfold st; cbn [lex]; rewrite !left_here, !(app_length (closing _ _ _)); cbn [length]; lia|].
    rewrite <- !app_assoc in *. exact ST2.
  - inversion P as [|? ? Pc Pr]; subst. destruct Pc as (NE & F & L & NP & LG & Pb). apply proper_all in Pb. rewrite written_cons.
    assert (Ur : utf8 (written rest ++ z)) by (apply utf8_app; [apply written_utf8, Pr|exact Uz]).
    destruct (holds_dec a neg any names NE F NP) as [_ HF]. specialize (HF H).
    pose proof (pass_off neg any long names body a k r x (written rest ++ z) NE F L HF Pb Ur) as PO.
    destruct (IH Pr (x ++ written [Cond neg any long names body]) (expression any names :: k) r z Uz) as (k' & ST & NK & LF').
    exists k'. split; [|split; [intros _; apply NK; discriminate|intro FL; inversion FL as [|? ? X]; subst; destruct X]].
    rewrite <- (app_assoc _ (written rest)). eapply St_next; [intro; apply PO| |rewrite <- app_assoc in ST; exact ST].
    unfold st. cbn [lex]. rewrite !left_here, (app_length (written [_])). rewrite written_cond, (app_length (opening _ _ _)). cbn [length app].
    destruct (opening neg any names) eqn:EO; [unfold opening in EO; destruct neg; discriminate|]. cbn. lia.
Qed.

(** ** fuel *)
Lemma pass_again (ag ag' : pstate A -> outcome (option (option (list rtok) * pstate A))) p : (forall q r, ag q = Ret (Some r) -> ag' q = Ret (Some r)) ->
  forall m, pass ag E plugins p = Ret m -> m <> NoFuel -> pass ag' E plugins p = Ret m.
Proof.
  intros H m. unfold pass. destruct (is_eof (lex p)) as [[]|]; try (intros; assumption).
  destruct (read_tokens _ _ _) as [[ks r1]|]; try (intros; assumption). destruct (skip_newline r1) as [r2|]; try (intros; assumption).
  destruct ks as [|t ks]; try (intros; assumption).
  assert (DI : forall d w q, do_ifdef ag E plugins d w (t :: ks) q = Ret m -> m <> NoFuel -> do_ifdef ag' E plugins d w (t :: ks) q = Ret m).
  { intros d w q. unfold do_ifdef. destruct (ifdef_parts _) as [[names [|c emb]]|]; try (intros; assumption).
    cbn [attrs]. destruct (evaluate_ifdef _ _ _ _); try (intros; assumption). intros X NF.
    match type of X with match ?e with _ => _ end = _ => destruct e as [[[l' p']|]|] eqn:AG; [|injection X as <-; congruence|discriminate] end.
    rewrite (H _ _ AG). exact X. }
  repeat match goal with |- (if ?x then _ else _) = _ -> _ => destruct x; try (intros; assumption) end; apply DI.
Qed.
Lemma next_line_more : forall f f' p r, f <= f' -> next_line E plugins f p = Ret (Some r) -> next_line E plugins f' p = Ret (Some r).
Proof.
  induction f as [|f IH]; intros f' p r L H; [discriminate|]. destruct f' as [|f']; [lia|]. cbn [next_line] in *.
  destruct (pass (next_line E plugins f) E plugins p) as [m|] eqn:PS; [|discriminate].
  assert (NF : m <> NoFuel) by (intros ->; discriminate).
  rewrite (pass_again (next_line E plugins f) (next_line E plugins f') p) with (m := m); [|intros q r' X; apply (IH f' q r'); [lia|exact X]|exact PS|exact NF].
  destruct m as [l p'|p'|p'|]; try exact H. apply (IH f' p' r); [lia|exact H].
Qed.
Lemma next_line_steps p p1 r : (forall f, pass (next_line E plugins (S f)) E plugins p = Ret (Next p1)) -> left_over (lex p1) < left_over (lex p) ->
  next_line E plugins (S (S (left_over (lex p1)))) p1 = Ret (Some r) -> next_line E plugins (S (S (left_over (lex p)))) p = Ret (Some r).
Proof.
  intros PS L H. change (next_line E plugins (S (S (left_over (lex p)))) p) with
    (match pass (next_line E plugins (S (left_over (lex p)))) E plugins p with
      | Panic => Panic | Ret (Deliver l p') => Ret (Some (Some l, p')) | Ret (Next p') => next_line E plugins (S (left_over (lex p))) p'
      | Ret (Over p') => Ret (Some (None, p')) | Ret NoFuel => Ret None end). rewrite PS.
  eapply next_line_more; [|exact H]. lia.
Qed.
Lemma all_lines_steps p out p2 p3 : steps p out p2 -> (forall f, pass (next_line E plugins (S f)) E plugins p2 = Ret (Over p3)) -> forall f, length out < f ->
  all_lines E plugins f p = Ret (Some (out, p3)).
Proof.
  intro ST. induction ST as [p|p l p1 out p2 PS L ST IH|p p1 out p2 PS L ST IH]; intros EO f F.
  - destruct f as [|f]; [lia|]. cbn [all_lines]. remember (left_over (lex p)) as n eqn:EN. clear EN.
    change (next_line E plugins (S (S n)) p) with (match pass (next_line E plugins (S n)) E plugins p with
      | Panic => Panic | Ret (Deliver l p') => Ret (Some (Some l, p')) | Ret (Next p') => next_line E plugins (S n) p'
      | Ret (Over p') => Ret (Some (None, p')) | Ret NoFuel => Ret None end). rewrite EO. reflexivity.
  - destruct f as [|f]; [cbn in F; lia|]. cbn [all_lines].
    replace (next_line E plugins (S (S (left_over (lex p)))) p) with (Ret (Some (Some l, p1))).
    2: { remember (left_over (lex p)) as n eqn:EN. clear EN.
         change (next_line E plugins (S (S n)) p) with (match pass (next_line E plugins (S n)) E plugins p with
           | Panic => Panic | Ret (Deliver l p') => Ret (Some (Some l, p')) | Ret (Next p') => next_line E plugins (S n) p'
           | Ret (Over p') => Ret (Some (None, p')) | Ret NoFuel => Ret None end). rewrite PS. reflexivity. }
    rewrite IH; [reflexivity|exact EO|cbn in F; lia].
  - specialize (IH EO f F). destruct f as [|f]; [lia|]. cbn [all_lines] in *.
    destruct (next_line E plugins (S (S (left_over (lex p1)))) p1) as [[r|]|] eqn:NL; try discriminate.
    pose proof (next_line_steps p p1 r PS L NL) as NL'. rewrite NL'. exact IH.
Qed.
Lemma steps_length p out p2 : steps p out p2 -> length out <= left_over (lex p).
Proof. induction 1; cbn; lia. Qed.
Lemma read_steps a s out p2 p3 : steps (st a [] [] s []) out p2 -> (forall f, pass (next_line E plugins (S f)) E plugins p2 = Ret (Over p3)) ->
  read_document E plugins a s = Ret (Some (out, p3)).
Proof.
  intros ST O. unfold read_document. rewrite new_here. apply (all_lines_steps _ _ _ _ ST O).
  apply steps_length in ST. unfold st in ST. cbn [lex] in ST. rewrite left_here in ST. lia.
Qed.
Lemma pass_over a k x r f : pass (next_line E plugins (S f)) E plugins (st a k x [] r) = Ret (Over (st a k x [] r)).
Proof. unfold pass, st. cbn [lex]. rewrite eof_here. reflexivity. Qed.
Theorem document_kept a is out a' : kept E a is out a' -> Forall proper is ->
  exists k x, read_document E plugins a (written is) = Ret (Some (out, mkP a' k (here x []) [])).
Proof.
  intros K P. destruct (kept_steps a is out a' K P [] [] [] []) as (k & ST & _); [apply is_utf8_spec; reflexivity|].
  rewrite app_nil_r in ST. exists k, ([] ++ written is). exact (read_steps _ _ _ _ _ ST (pass_over _ _ _ _)).
Qed.
Lemma kept_total is : Forall proper is -> forall a, exists out a', kept E a is out a'.
Proof.
  assert (ONE : forall i, proper i -> forall a r, (forall a1, exists out a', kept E a1 r out a') -> exists out a', kept E a (i :: r) out a').
  { induction i as [l|neg any long names body IH] using item_induction; intros P a r R.
    - destruct (R (upd E a l)) as (out & a' & K). eexists _, _. constructor. exact K.
    - destruct P as (NE & F & L & NP & LG & Pb). apply proper_all in Pb.
      pose proof (evaluate_spec E a neg any names NE F NP) as EV. destruct (evaluate_ifdef E a (negb neg) (expression any names)).
      + assert (B : forall a0, exists out a', kept E a0 body out a').
        { clear -IH Pb. induction body as [|i r IHr]; intro a0; [eexists _, _; constructor|]. inversion IH; subst. inversion Pb; subst. apply H1; auto. }
        destruct (B a) as (o1 & a1 & K1), (R a1) as (o2 & a2 & K2). eexists _, _. eapply K_on; [apply EV; reflexivity|exact K1|exact K2].
      + destruct (R a) as (o & a' & K). eexists _, _. eapply K_off; [intro X; apply EV in X; discriminate|exact K]. }
  induction 1 as [|i r P F IH]; intro a; [eexists _, _; constructor|]. apply ONE; auto.
Qed.
Lemma kept_one a is out a' : kept E a is out a' -> forall out2 a2, kept E a is out2 a2 -> out2 = out /\ a2 = a'.
Proof.
  induction 1 as [a|a l rest out a' K IH|a neg any long names body rest out1 a1 out2 a2 H K1 IH1 K2 IH2|a neg any long names body rest out a' H K IH];
    intros o b K'; inversion K'; subst; try contradiction.
  - auto.
  - match goal with X : kept E (upd E a l) rest _ _ |- _ => destruct (IH _ _ X) as [-> ->] end. auto.
  - match goal with X : kept E a body _ _ |- _ => destruct (IH1 _ _ X) as [-> ->] end.
    match goal with X : kept E a1 rest _ _ |- _ => destruct (IH2 _ _ X) as [-> ->] end. auto.
  - match goal with X : kept E a rest _ _ |- _ => destruct (IH _ _ X) as [-> ->] end. auto.
Qed.

(** ** never closed *)
Lemma skip_line_end l : forall n x, length l <= n -> one_line l -> quiet l -> utf8 l ->
  exists m, m <= S (length l) /\ forall f d, m <= f -> skip_to_endif plugins f d (here x (l ++ [LF])) = Ret (Some (false, here (x ++ l ++ [LF]) [])).
Proof.
  intro n. revert l. induction n as [|n IH]; intros l x Ln O Q U.
  all: destruct l as [|c l]; [|try (cbn in Ln; lia)].
  1, 2: exists 1; split; [cbn; lia|]; intros f d Lf; destruct f as [|f]; [lia|]; cbn [app]; cbn [skip_to_endif]; rewrite newline_tok;
    unfold names_directive, is_directive; cbn [located k_kind t_kind andb orb]; rewrite eof_here; reflexivity.
  assert (U1 : utf8 ((c :: l) ++ LF :: [])) by (apply utf8_app; [exact U|apply is_utf8_spec; reflexivity]).
  destruct (line_token plugins x (c :: l) [] PL) as (k & w & l' & lo & EQ & NW & L & U' & NT); [discriminate|exact O|exact U1|].
  assert (LE : length (c :: l) = length w + length l') by (rewrite EQ; apply app_length). assert (0 < length w) by (destruct w; [congruence|cbn; lia]).
  assert (Qw : forall s, In s [$"ifdef::"; $"ifndef::"; $"endif::"] -> names_directive (mkRtok k w lo) s = false)
    by (intros s I; apply (quiet_names (c :: l)); eauto).
  assert (Ul : utf8 l') by (eapply ascii_head_utf8; [exact U'|reflexivity]).
  rewrite EQ in O, Q. apply one_line_app in O as [_ O]. apply quiet_app in Q as [_ Q].
  destruct (IH l' (x ++ w)) as (m & Lm & M); [lia|exact O|exact Q|exact Ul|].
  exists (S m). split; [lia|]. intros f d Lf. destruct f as [|f]; [lia|]. cbn [skip_to_endif]. rewrite NT, !Qw by (cbn; tauto). cbn [orb].
  rewrite eof_here. replace (match l' ++ [LF] with [] => true | _ => false end) with false by (destruct l'; reflexivity).
  rewrite M by lia. rewrite EQ, <- !app_assoc. reflexivity.
Qed.
Lemma eof_tok x : next_tok plugins (here x []) = Ret (mkRtok Eof [] (mkLoc (length x + 1) (length x + 1) 0), mkRoot 0 None [] [mkSource (mkLexer x (length x + 1) 0) None] None).
Proof. unfold next_tok, here. cbn -[at_ next_token]. rewrite next_end. reflexivity. Qed.
Lemma skip_all body : Forall proper body -> forall x f d, length (written body) < f -> 1 <= d ->
  exists r, skip_to_endif plugins f d (here x (written body)) = Ret (Some (false, r)).
Proof.
  induction 1 as [|i r P F IH]; intros x f d Lf D.
  - destruct f as [|f]; [lia|]. cbn [skip_to_endif]. change (written []) with (@nil ascii). rewrite eof_tok.
    unfold names_directive, is_directive. cbn [k_kind andb orb]. unfold is_eof, peek. cbn [tmp next_idx idx stack].
    unfold source_peek. cbn [sources nth_error s_lex]. unfold lex_peek. cbn [src pos].
    replace (nth_error x (length x + 1)) with (@None ascii) by (symmetry; apply nth_error_None; lia). eexists. reflexivity.
  - destruct r as [|j r].
    + destruct i as [l|neg any long names body].
      * rewrite written_line in *. destruct P as (Ul & N & R & Q & _).
        destruct (skip_line_end l (length l) x (le_n _) (conj N R) Q Ul) as (m & Lm & M). rewrite app_length in Lf. cbn in Lf.
        eexists. apply M. lia.
      * rewrite written_cond in *. destruct P as (_ & Fn & _ & _ & _ & Pb). apply proper_all in Pb.
        set (Z := closing any long names ++ [LF]) in *.
        assert (NZ : Z <> []) by (unfold Z, closing; discriminate). assert (UZ : utf8 Z) by (unfold Z; apply utf8_app; [apply closing_utf8, Fn|apply is_utf8_spec; reflexivity]).
        assert (NB : written body ++ Z <> []) by (destruct (written body); [exact NZ|discriminate]).
        assert (UB : utf8 (written body ++ Z)) by (apply utf8_app; [apply written_utf8, Pb|exact UZ]).
        destruct (skip_open plugins (written body ++ Z) x neg any names PL NB UB Fn) as (m1 & L1 & M1).
        destruct (skip_items plugins Z PL NZ UZ body Pb (x ++ opening neg any names ++ [LF])) as (m2 & L2 & M2).
        change (opening neg any names ++ [newline] ++ written body ++ closing any long names ++ [newline]) with (opening neg any names ++ [LF] ++ written body ++ Z) in *.
        rewrite !app_length in *. cbn [length] in *. assert (2 <= length Z) by (unfold Z, closing; rewrite !app_length; cbn; lia).
        replace f with (m1 + (m2 + S (S (f - m1 - m2 - 2)))) by lia. specialize (M1 (m2 + S (S (f - m1 - m2 - 2))) d). rewrite <- !app_assoc in M1.
        rewrite M1, M2 by lia. unfold Z. rewrite (skip_close plugins [] _ any long names _ (d + 1) PL) by (first [exact Fn|apply is_utf8_spec; reflexivity]).
        replace (d + 1 =? 1) with false by (symmetry; apply Nat.eqb_neq; lia). cbn [skip_to_endif]. rewrite newline_tok.
        unfold names_directive, is_directive. cbn [located k_kind t_kind andb orb]. rewrite eof_here. eexists. reflexivity.
    + rewrite (written_cons i (j :: r)) in *. set (W := written (j :: r)) in *.
      assert (NW : W <> []).
      { unfold W. rewrite written_cons. destruct j as [l|neg any long names body]; [rewrite written_line; destruct l; discriminate|].
        rewrite written_cond. unfold opening. destruct neg; discriminate. }
      destruct (skip_item plugins PL i P W NW (written_utf8 _ F) x) as (m & Lm & M). rewrite app_length in Lf.
      replace f with (m + (f - m)) by lia. rewrite M by exact D. apply IH; lia.
Qed.

Theorem document_unclosed a before out a' neg any names body : kept E a before out a' -> Forall proper before ->
  names <> [] -> Forall attribute_name names -> 2 <= length (expression any names) -> (neg = true -> any = true \/ length names = 1) ->
  ~ holds E a' neg any names -> Forall proper body ->
  exists k l, read_document E plugins a (written before ++ opening neg any names ++ [newline] ++ written body) = Ret (Some (out, mkP a' k l [NeverClosed])).
Proof.
  intros K P NE F L NP H Pb.
  set (T := opening neg any names ++ [newline] ++ written body). pose proof (written_utf8 body Pb) as Ub.
  assert (UT : utf8 T) by (unfold T; apply utf8_app; [apply opening_utf8, F|apply utf8_nl, Ub]).
  destruct (kept_steps a before out a' K P [] [] [] T UT) as (k & ST & _).
  destruct (holds_dec a' neg any names NE F NP) as [_ EV]. specialize (EV H).
  pose proof (expression_bytes any names F) as As. set (s := expression any names) in *. set (name := if neg then $"ifndef" else $"ifdef") in *.
  assert (EO : opening neg any names = (name ++ $"::") ++ s ++ $"[]") by (unfold opening, name; destruct neg; reflexivity).
  set (x := [] ++ written before) in *. clearbody x.
  destruct (directive_tokens name s x (written body) (S (length (opening neg any names ++ LF :: written body)))) as (lo & ks & RT & SO & N);
    [unfold name; destruct neg; cbn; tauto|exact As|exact Ub|rewrite EO, (app_length _ (LF :: written body)); lia|].
  destruct (skip_all body Pb (x ++ (name ++ $"::") ++ s ++ $"[]" ++ [LF]) (S (S (length (written body)))) 1) as (r & SK); [lia|lia|].
  exists (s :: k), r. apply (read_steps _ _ _ _ _ ST). intro f.
  assert (DI : forall q ag, attrs q = a' -> lex q = here (x ++ (name ++ $"::") ++ s ++ $"[]" ++ [LF]) (written body) ->
    do_ifdef ag E plugins (negb neg) (if neg then 8 else 7) (mkRtok Directive (name ++ $"::") lo :: ks) q =
    Ret (Over (mkP (attrs q) (s :: stk q) r (reports q ++ [NeverClosed])))).
  { intros q ag Qa Q. unfold do_ifdef.
    change (source_of (mkRtok Directive (name ++ $"::") lo :: ks)) with ((name ++ $"::") ++ source_of ks). rewrite SO.
    replace (skipn (if neg then 8 else 7) ((name ++ $"::") ++ s ++ $"[]")) with (s ++ $"[]") by (unfold name; destruct neg; reflexivity).
    rewrite (ifdef_parts_spec s As L). cbn [attrs lex stk reports]. rewrite Qa, EV. rewrite Q, left_here, SK. reflexivity. }
  unfold pass, st. cbn [lex attrs stk reports]. rewrite eof_here, left_here. unfold T.
  replace (match opening neg any names ++ [newline] ++ written body with [] => true | _ => false end) with false by (unfold opening; destruct neg; reflexivity).
  change (opening neg any names ++ [newline] ++ written body) with (opening neg any names ++ LF :: written body).
  replace (here x (opening neg any names ++ LF :: written body)) with (here x ((name ++ $"::") ++ s ++ $"[]" ++ LF :: written body)) by (rewrite EO, <- !app_assoc; reflexivity).
  rewrite RT, newline_here, !nd_self.
  destruct neg; unfold name in *; cbn [negb] in *.
  - replace (bytes_eqb ($"ifndef" ++ $"::") ($"ifdef::")) with false by reflexivity. replace (bytes_eqb ($"ifndef" ++ $"::") ($"ifndef::")) with true by reflexivity.
    rewrite DI; [reflexivity|reflexivity|]. cbn [lex]. rewrite <- !app_assoc. reflexivity.
  - replace (bytes_eqb ($"ifdef" ++ $"::") ($"ifdef::")) with true by reflexivity. rewrite DI; [reflexivity|reflexivity|]. cbn [lex]. rewrite <- !app_assoc. reflexivity.
Qed.

(** ** one-line conditionals *)
Definition buffered (x z u v : bytes) (n : nat) : root := mkRoot 0 None [] [mkSource (at_ x z 0) None] (Some (at_ u v 0, Offset n)).
Lemma peek_buffered x z u v n : peek (buffered x z u v n) = Ret (hd_error v).
Proof. unfold peek, buffered. cbn -[at_ lex_peek]. rewrite peek_at. reflexivity. Qed.
Lemma eof_at u v o : lex_eof (at_ u v o) = match v with [] => true | _ => false end.
Proof.
  unfold lex_eof, at_. cbn [src pos]. rewrite app_length. destruct v; cbn [length]; [apply Nat.eqb_eq; lia|apply Nat.eqb_neq; lia].
Qed.
Lemma buffered_tokens x z n : forall m l u fuel, length l <= m -> one_line l -> utf8 l -> length l < fuel ->
  exists ks, read_tokens plugins fuel (buffered x z u (l ++ [LF]) n) = Ret (ks, buffered x z (u ++ l) [LF] n) /\ source_of ks = l.
Proof.
  assert (NIL : forall u fuel, 0 < fuel -> exists ks, read_tokens plugins fuel (buffered x z u ([] ++ [LF]) n) = Ret (ks, buffered x z (u ++ []) [LF] n) /\ source_of ks = []).
  { intros u fuel F. exists []. destruct fuel; [lia|]. rewrite app_nil_r. cbn [read_tokens app]. unfold at_newline, is_eof. rewrite peek_buffered. split; reflexivity. }
  induction m as [|m IH]; intros l u fuel Lm O U F.
  { destruct l as [|c l]; [|cbn in Lm; lia]. apply NIL, F. }
  destruct l as [|c l]; [apply NIL, F|]. destruct fuel as [|fuel]; [lia|].
  assert (U1 : utf8 ((c :: l) ++ LF :: [])) by (apply utf8_app; [exact U|apply is_utf8_spec; reflexivity]).
  destruct (next_some [] u ((c :: l) ++ LF :: []) 0) as (k & w & z0 & EQ & NW & U0 & L & P & NT); [discriminate|exact U1|].
  assert (NK : k <> Newline).
  { intros ->. apply newline_lexeme in L. destruct O as [O1 O2]. destruct L as [->| ->]; cbn in EQ; injection EQ as -> EQ; [apply O1|apply O2]; left; reflexivity. }
  assert (NN : ~ In LF w) by (apply (lexeme_no_newline [] k w); [intros p []|exact L|exact NK]).
  destruct (prefix_le _ _ _ _ (eq_sym EQ) NN) as (l' & El & ->).
  assert (LE : length (c :: l) = length w + length l') by (rewrite El; apply app_length). assert (0 < length w) by (destruct w; [congruence|cbn; lia]).
  assert (O' : one_line l') by (rewrite El in O; apply one_line_app in O; tauto).
  destruct (IH l' (u ++ w) fuel) as (ks & R & SO); [lia|exact O'|eapply ascii_head_utf8; [exact U0|reflexivity]|lia|].
  cbn [read_tokens]. unfold at_newline, is_eof. rewrite peek_buffered. cbn [app hd_error is].
  assert (NC : Ascii.eqb c LF || Ascii.eqb c CR = false).
  { destruct O as [O1 O2]. apply orb_false_iff. split; apply Ascii.eqb_neq; intros ->; [apply O1|apply O2]; left; reflexivity. }
  rewrite NC. unfold next_tok, buffered. cbn [tmp]. cbn [app] in NT. rewrite NT. rewrite eof_at.
  replace (match l' ++ [LF] with [] => true | _ => false end) with false by (destruct l'; reflexivity).
  cbn [idx next_idx stack sources]. unfold buffered in R. rewrite R.
  eexists. rewrite <- app_assoc, <- El. split; [reflexivity|]. cbn. rewrite El. f_equal. exact SO.
Qed.
Lemma pass_buffered a k r x z l n : ordinary l -> exists ks, source_of ks = l /\
  forall again, pass again E plugins (mkP a k (buffered x z [] (l ++ [LF]) n) r) = Ret (Deliver ks (st (upd E a l) k x z r)).
Proof.
  intros (U & N & R & Q & S0). unfold pass, st. cbn [lex attrs stk reports].
  destruct (buffered_tokens x z n (length l) l [] (S (left_over (buffered x z [] (l ++ [LF]) n)))) as (ks & RT & SO); [lia|split; assumption|exact U| |].
  { unfold left_over, buffered. cbn [tmp]. unfold left_in at 1. rewrite rest_at, app_length. lia. }
  exists ks. split; [exact SO|]. intro again. unfold is_eof at 1. rewrite peek_buffered.
  replace (hd_error (l ++ [LF])) with (Some (hd LF l)) by (destruct l; reflexivity). rewrite RT.
  unfold skip_newline, skip_if, peek_is. rewrite peek_buffered. cbn [hd_error is]. replace (Ascii.eqb LF CR) with false by reflexivity.
  rewrite peek_buffered. cbn [hd_error is]. replace (Ascii.eqb LF LF) with true by reflexivity.
  unfold skip_byte, buffered. cbn [tmp]. rewrite move_at, eof_at. cbn [idx next_idx stack sources]. fold (here x z).
  destruct ks as [|t ks]; [rewrite SO; reflexivity|].
  assert (PRE : exists q, l = k_lexeme t ++ q) by (exists (source_of ks); symmetry; exact SO).
  destruct t as [kd w lo]. cbn [k_lexeme] in PRE.
  rewrite !(quiet_names l kd w lo) by (auto; cbn; tauto).
  assert (NS : forall s, In s [$"ifeval::"; $"asciidorkinclude::"] -> names_directive (mkRtok kd w lo) s = false).
  { intros s I. unfold names_directive. cbn [k_lexeme]. destruct (bytes_eqb w s) eqn:EW; [|apply andb_false_r].
    apply bytes_eqb_eq in EW. subst w. exfalso. specialize (S0 s I). apply not_true_iff_false in S0. apply S0. apply starts_with_spec. destruct PRE as [q ->]. exists q. reflexivity. }
  rewrite !NS by (cbn; tauto). rewrite SO. reflexivity.
Qed.
Lemma ifdef_parts_text s l : all_of expr_byte s -> 2 <= length s -> ifdef_parts (s ++ $"[" ++ l ++ $"]") = Some (s, l).
Proof.
  intros As L. unfold ifdef_parts. cbn [b list_ascii_of_string app]. rewrite split_bracket by (apply (expr_free _ _ As); cbn; tauto).
  rewrite chars_ascii by exact As. replace (2 <=? length s) with true by (symmetry; apply Nat.leb_le, L). change (["]"%char]) with ($"]"). rewrite ends_with_app.
  replace (firstn (length (l ++ $"]") - 1) (l ++ $"]")) with l
    by (rewrite app_length; cbn [length b list_ascii_of_string]; replace (length l + 1 - 1) with (length l) by lia; symmetry; apply firstn_pre).
  replace (existsb (ends_with s) white) with false; [reflexivity|]. symmetry. apply not_true_iff_false. intro H.
  apply existsb_exists in H as (w & I & H). apply ends_with_spec in H as [q ->].
  pose proof (expr_no_white (q ++ w) w As I) as N. apply (find_sub_none _ _ N q []). rewrite app_nil_r. reflexivity.
Qed.
Lemma text_directive_tok name s y x : In name [$"include"; $"ifdef"; $"ifndef"; $"endif"; $"ifeval"; $"asciidorkinclude"] -> all_of expr_byte s -> 2 <= length s -> y <> [] ->
  exists lo, next_tok plugins (here x ((name ++ $"::") ++ s ++ y)) = Ret (mkRtok Directive (name ++ $"::") lo, here (x ++ name ++ $"::") (s ++ y)).
Proof.
  intros I As L NY. destruct s as [|c s]; [cbn in L; lia|]. cbn [app].
  eexists. refine (next_here plugins x _ _ _ _ (recognise_directive plugins x name c (s ++ y) 0 I _ _)).
  - inversion As; subst. apply expr_not_space. assumption.
  - rewrite app_length. destruct y; [congruence|]. cbn in *. lia.
Qed.
Lemma pass_inline (neg any : bool) names l a k r x z : names <> [] -> Forall attribute_name names -> 2 <= length (expression any names) -> ordinary l -> l <> [] -> utf8 z ->
  let line := (if neg then $"ifndef::" else $"ifdef::") ++ expression any names ++ $"[" ++ l ++ $"]" in
  exists ks, source_of ks = l /\ forall f, pass (next_line E plugins (S f)) E plugins (st a k x (line ++ LF :: z) r) =
    if evaluate_ifdef E a (negb neg) (expression any names)
    then Ret (Deliver ks (st (upd E a l) (expression any names :: k) (x ++ line ++ [LF]) z r))
    else Ret (Next (st a (expression any names :: k) (x ++ line ++ [LF]) z r)).
Proof.
  intros NE F L O NL Uz line. pose proof (expression_bytes any names F) as As. set (s := expression any names) in *.
  set (name := if neg then $"ifndef" else $"ifdef"). pose proof O as (Ul & N & R & _).
  set (y := $"[" ++ l ++ $"]").
  assert (EO : line = (name ++ $"::") ++ s ++ y) by (unfold line, name; destruct neg; reflexivity).
  assert (I : In name [$"include"; $"ifdef"; $"ifndef"; $"endif"; $"ifeval"; $"asciidorkinclude"]) by (unfold name; destruct neg; cbn; tauto).
  assert (OL : one_line (s ++ y)).
  { split; intro J; apply in_app_or in J as [J|J]; try (revert J; apply (expr_free _ _ As); cbn; tauto);
      (unfold y in J; apply in_app_or in J as [[J|[]]|J]; [discriminate|]; apply in_app_or in J as [J|[J|[]]]; [contradiction|discriminate]). }
  assert (UL : utf8 ((s ++ y) ++ LF :: z)).
  { apply utf8_app; [|apply utf8_nl, Uz]. apply utf8_app; [apply expr_utf8, As|]. unfold y. apply utf8_app; [apply is_utf8_spec; reflexivity|]. apply utf8_app; [exact Ul|apply is_utf8_spec; reflexivity]. }
  destruct (text_directive_tok name s (y ++ LF :: z) x I As L) as (lo & DT); [unfold y; discriminate|].
  destruct (line_tokens plugins z PL (length (s ++ y)) (s ++ y) (x ++ name ++ $"::") (length (line ++ LF :: z))) as (ks & RT & SO & _);
    [lia|exact OL|exact UL|rewrite EO, <- app_assoc, (app_length (name ++ _)), (app_length (s ++ y)); unfold name; destruct neg; cbn; lia|].
  destruct (pass_buffered a (s :: k) r (x ++ line ++ [LF]) z l (l_start lo + (if neg then 8 else 7) + length s + 1) O) as (kl & SL & PB).
  exists kl. split; [exact SL|]. intro f.
  assert (RA : read_tokens plugins (S (length (line ++ LF :: z))) (here x (line ++ LF :: z)) =
    Ret (mkRtok Directive (name ++ $"::") lo :: ks, here (x ++ line) (LF :: z))).
  { assert (EL : line ++ LF :: z = (name ++ $"::") ++ s ++ y ++ LF :: z) by (rewrite EO, <- !app_assoc; reflexivity).
    set (fu := length (line ++ LF :: z)) in *. clearbody fu. cbn [read_tokens]. rewrite EL. unfold at_newline, is_eof. rewrite peek_here.
    assert (HD : exists c, hd_error ((name ++ $"::") ++ s ++ y ++ LF :: z) = Some c /\ Ascii.eqb c LF || Ascii.eqb c CR = false) by (unfold name; destruct neg; cbn; eauto).
    destruct HD as (c & -> & NC). cbn [is]. rewrite NC, DT. rewrite <- (app_assoc s y) in RT. rewrite RT. rewrite EO, <- !app_assoc. reflexivity. }
  unfold pass, st. cbn [lex attrs stk reports]. rewrite eof_here, left_here.
  replace (match line ++ LF :: z with [] => true | _ => false end) with false by (unfold line; destruct neg; reflexivity).
  rewrite RA, newline_here, !nd_self. rewrite <- app_assoc.
  assert (DI : forall q, attrs q = a -> lex q = here (x ++ line ++ [LF]) z -> stk q = k -> reports q = r ->
    do_ifdef (next_line E plugins (S f)) E plugins (negb neg) (if neg then 8 else 7) (mkRtok Directive (name ++ $"::") lo :: ks) q =
    if evaluate_ifdef E a (negb neg) s then Ret (Deliver kl (st (upd E a l) (s :: k) (x ++ line ++ [LF]) z r))
    else Ret (Next (st a (s :: k) (x ++ line ++ [LF]) z r))).
  { intros q Qa Q Qk Qr. unfold do_ifdef.
    change (source_of (mkRtok Directive (name ++ $"::") lo :: ks)) with ((name ++ $"::") ++ source_of ks). rewrite SO.
    replace (skipn (if neg then 8 else 7) ((name ++ $"::") ++ s ++ y)) with (s ++ y) by (unfold name; destruct neg; reflexivity).
    unfold y. rewrite (ifdef_parts_text s l As L). cbn [attrs lex stk reports]. rewrite Qa, Q, Qk, Qr.
    destruct l as [|c0 l0]; [congruence|]. destruct (evaluate_ifdef E a (negb neg) s); [|reflexivity].
    cbn [start_of k_loc]. cbn [next_line].
    change (set_tmp_buf ((c0 :: l0) ++ [LF]) (Offset (l_start lo + (if neg then 8 else 7) + length s + 1)) (here (x ++ line ++ [LF]) z))
      with (buffered (x ++ line ++ [LF]) z [] ((c0 :: l0) ++ [LF]) (l_start lo + (if neg then 8 else 7) + length s + 1)).
    rewrite PB. reflexivity. }
  destruct neg; unfold name in *; cbn [negb] in *.
  - replace (bytes_eqb ($"ifndef" ++ $"::") ($"ifdef::")) with false by reflexivity. replace (bytes_eqb ($"ifndef" ++ $"::") ($"ifndef::")) with true by reflexivity.
    apply DI; reflexivity.
  - replace (bytes_eqb ($"ifdef" ++ $"::") ($"ifdef::")) with true by reflexivity. apply DI; reflexivity.
Qed.
Theorem document_inline a before out a1 (neg any : bool) names l after out2 a2 : kept E a before out a1 -> Forall proper before ->
  names <> [] -> Forall attribute_name names -> 2 <= length (expression any names) -> (neg = true -> any = true \/ length names = 1) ->
  ordinary l -> l <> [] -> Forall proper after ->
  (holds E a1 neg any names -> kept E (upd E a1 l) after out2 a2) -> (~ holds E a1 neg any names -> kept E a1 after out2 a2) ->
  exists k x mid, (holds E a1 neg any names /\ mid = [l] \/ ~ holds E a1 neg any names /\ mid = []) /\
    read_document E plugins a (written before ++ ((if neg then $"ifndef::" else $"ifdef::") ++ expression any names ++ $"[" ++ l ++ $"]") ++ [newline] ++ written after) =
      Ret (Some (out ++ mid ++ out2, mkP a2 k (here x []) [])).
Proof.
  intros K P NE F L NP O NL Pa K1 K0. set (line := (if neg then $"ifndef::" else $"ifdef::") ++ expression any names ++ $"[" ++ l ++ $"]").
  pose proof (written_utf8 after Pa) as Ua. pose proof O as (Ul & _).
  assert (ULN : utf8 line).
  { unfold line. apply utf8_app; [destruct neg; apply is_utf8_spec; reflexivity|]. apply utf8_app; [apply expr_utf8, expression_bytes, F|].
    apply utf8_app; [apply is_utf8_spec; reflexivity|]. apply utf8_app; [exact Ul|apply is_utf8_spec; reflexivity]. }
  destruct (kept_steps a before out a1 K P [] [] [] (line ++ LF :: written after)) as (k & ST & _); [apply utf8_app; [exact ULN|apply utf8_nl, Ua]|].
  set (x := [] ++ written before) in *. clearbody x.
  destruct (pass_inline neg any names l a1 k [] x (written after) NE F L O NL Ua) as (ks & SO & PI). fold line in PI.
  pose proof (evaluate_spec E a1 neg any names NE F NP) as EV.
  assert (LL : left_over (here (x ++ line ++ [LF]) (written after)) < left_over (here x (line ++ LF :: written after))) by (rewrite !left_here, (app_length line); cbn; lia).
  assert (U0 : utf8 []) by (apply is_utf8_spec; reflexivity).
  destruct (evaluate_ifdef E a1 (negb neg) (expression any names)).
  - specialize (K1 (proj1 EV eq_refl)). destruct (kept_steps _ _ _ _ K1 Pa (x ++ line ++ [LF]) (expression any names :: k) [] [] U0) as (k2 & ST2 & _). rewrite app_nil_r in ST2.
    exists k2, ((x ++ line ++ [LF]) ++ written after), [l]. split; [left; split; [apply EV; reflexivity|reflexivity]|].
    eapply read_steps; [eapply steps_app; [exact ST|]|apply pass_over]. cbn [app]. replace (l :: out2) with (source_of ks :: out2) by (rewrite SO; reflexivity).
    eapply St_line; [exact PI|exact LL|exact ST2].
  - assert (NH : ~ holds E a1 neg any names) by (intro X; apply EV in X; discriminate). specialize (K0 NH).
    destruct (kept_steps _ _ _ _ K0 Pa (x ++ line ++ [LF]) (expression any names :: k) [] [] U0) as (k2 & ST2 & _). rewrite app_nil_r in ST2.
    exists k2, ((x ++ line ++ [LF]) ++ written after), []. split; [right; split; [exact NH|reflexivity]|].
    eapply read_steps; [eapply steps_app; [exact ST|]|apply pass_over]. cbn [app].
    eapply St_next; [exact PI|exact LL|exact ST2].
Qed.
End Passes.
