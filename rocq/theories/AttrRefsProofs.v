(** Proofs about attribute references. *)
From Verif Require Import Base Text Utf8 LexerModel LexerSpec LexerProofs RootModel AttrsModel TagsProofs IfdefSpec IfdefProofs AttrRefsModel AttrRefsSpec.
From Coq Require Import Lia.

(** ** names and values *)
Lemma lower_byte_spec c : (between 65 90 c = true /\ val (lower_byte c) = val c + 32)%N \/ (between 65 90 c = false /\ lower_byte c = c).
Proof. destruct c as [[] [] [] [] [] [] [] []]; vm_compute; intuition. Qed.
Lemma lower_byte_one c d : (between 65 90 c = true /\ val d = val c + 32)%N \/ (between 65 90 c = false /\ d = c) -> d = lower_byte c.
Proof.
  destruct (lower_byte_spec c) as [[B V]|[B V]]; intros [[B' V']|[B' V']]; try congruence.
  unfold val in *. rewrite <- (ascii_N_embedding d), <- (ascii_N_embedding (lower_byte c)). congruence.
Qed.
Lemma lowered_lowercase n : lowered n (lowercase n).
Proof. unfold lowered, lowercase. induction n as [|c n IH]; constructor; [apply lower_byte_spec|exact IH]. Qed.
Lemma lowered_one n m : lowered n m -> m = lowercase n.
Proof. induction 1 as [|c d n m H _ IH]; [reflexivity|]. rewrite (lower_byte_one _ _ H), IH. reflexivity. Qed.
Lemma defined_get get n v : defined get n v <-> exists s, get (lowercase n) = Some (AStr s) /\ v = b s.
Proof.
  split.
  - intros (m & s & L & G & E). apply lowered_one in L. subst m. eauto.
  - intros (s & G & E). exists (lowercase n), s. auto using lowered_lowercase.
Qed.
Lemma attr_name_of n : attr_name (reference n) = n.
Proof.
  unfold attr_name, reference. cbn [b list_ascii_of_string app length skipn]. rewrite app_length. cbn [length].
  replace (S (length n + 1) - 2) with (length n) by lia. apply firstn_pre.
Qed.
Lemma missing_of_spec get s m : In (s, m) [($"drop", MDrop); ($"drop-line", MDropLine); ($"warn", MWarn)] ->
  missing_of (get ($"attribute-missing")) = m <-> missing_is get s.
Proof.
  intro I. unfold missing_of, missing_is. destruct (get ($"attribute-missing")) as [[v|v]|].
  - split.
    + intro E. exists v. split; [reflexivity|].
      destruct (bytes_eqb (b v) ($"drop")) eqn:E1; [|destruct (bytes_eqb (b v) ($"drop-line")) eqn:E2; [|destruct (bytes_eqb (b v) ($"warn")) eqn:E3]];
        destruct I as [I|[I|[I|[]]]]; apply pair_equal_spec in I as [<- <-]; try discriminate E; apply bytes_eqb_eq; assumption.
    + intros (w & E & F). injection E as <-. rewrite F. destruct I as [I|[I|[I|[]]]]; injection I as <- <-; reflexivity.
  - split; [destruct I as [I|[I|[I|[]]]]; injection I as <- <-; discriminate|]. intros (w & E & _). discriminate.
  - split; [destruct I as [I|[I|[I|[]]]]; injection I as <- <-; discriminate|]. intros (w & E & _). discriminate.
Qed.

(** ** where braces can be in a token *)
Lemma brace_lexeme plugins k w : word_plugins plugins -> lexeme_of plugins k w ->
  (exists c t, w = c :: t /\ ~ In "{"%char t) /\ (k = AttrRef -> exists n, w = reference n /\ ref_name n).
Proof.
  intros PL L. assert (NL : forall P s, P "{"%char = false -> all_of P s -> ~ In "{"%char s).
  { intros P s F A I. unfold all_of in A. rewrite Forall_forall in A. specialize (A _ I). congruence. }
  assert (FIN : forall l s, In s l -> forallb (fun s => match s with [] => false | _ :: t => negb (contains_byte "{"%char t) end) l = true ->
    exists c t, s = c :: t /\ ~ In "{"%char t).
  { intros l s I F. rewrite forallb_forall in F. specialize (F s I). destruct s as [|c t]; [discriminate|]. exists c, t. split; [reflexivity|].
    intro J. apply contains_byte_In in J. rewrite J in F. discriminate. }
  inversion L; subst; (split; [|try discriminate]).
  - eexists _, _. split; [reflexivity|intros []].
  - intros ->. cbn in H. repeat (destruct H as [H|H]; [discriminate|]). destruct H.
  - apply (FIN _ _ H). reflexivity.
  - eexists _, _. split; [reflexivity|]. intro J. apply repeat_spec in J. subst c. cbn in H. repeat (destruct H as [H|H]; [discriminate|]). destruct H.
  - intros ->. cbn in H. repeat (destruct H as [H|H]; [discriminate|]). destruct H.
  - destruct w as [|c t]; [congruence|]. exists c, t. split; [reflexivity|]. inversion H0; subst. eapply NL; [|eassumption]. reflexivity.
  - destruct w as [|c t]; [congruence|]. exists c, t. split; [reflexivity|]. inversion H0; subst. eapply NL; [|eassumption]. reflexivity.
  - eexists _, _. split; [reflexivity|]. cbn. intros [J|J]; [discriminate|]. apply in_app_iff in J as [J|[J|[]]]; [|discriminate]. revert J.
    destruct H as [[_ A]|(h & -> & _ & A)]; [eapply NL; [|exact A]; reflexivity|]. cbn. intros [J|J]; [discriminate|]. revert J. eapply NL; [|exact A]; reflexivity.
  - eexists _, _. split; [reflexivity|]. cbn. intros [J|[J|J]].
    + subst a. discriminate.
    + subst c. discriminate.
    + apply in_app_iff in J as [J|[J|[]]]; [|discriminate]. revert J. eapply NL; [|exact H1]; reflexivity.
  - eexists _, _. split; [reflexivity|]. cbn. intro J. apply in_app_iff in J as [J|[J|[]]]; [|discriminate]. revert J. eapply NL; [|exact H0]; reflexivity.
  - intros _. exists s. split; [reflexivity|split; assumption].
  - eexists _, _. split; [reflexivity|]. cbn. intro J. apply in_app_iff in J as [J|[J|[]]]; [|discriminate]. revert J.
    destruct H as [->|[_ A]]; [cbn; intuition discriminate|eapply NL; [|exact A]; reflexivity].
  - eexists _, _. split; [reflexivity|]. cbn. intros [J|[J|[J|J]]]; try discriminate. apply in_app_iff in J as [J|[J|[J|[J|[]]]]]; try discriminate. revert J.
    destruct H as [->|[_ A]]; [cbn; intuition discriminate|eapply NL; [|exact A]; reflexivity].
  - apply (FIN _ _ H). reflexivity.
  - apply (FIN _ _ H). reflexivity.
  - eexists _, _. split; [reflexivity|]. cbn. intros [J|[J|[J|J]]]; try discriminate. apply repeat_spec in J. discriminate.
  - apply (FIN _ _ H). vm_compute. reflexivity.
  - eexists _, _. split; [reflexivity|]. cbn. intuition discriminate.
  - apply (FIN (map (fun s => s ++ $"::") [$"include"; $"ifdef"; $"ifndef"; $"endif"; $"ifeval"; $"asciidorkinclude"])); [|reflexivity].
    apply (in_map (fun s => s ++ $"::") _ _ H).
  - apply (FIN _ _ H). reflexivity.
  - destruct H as [H|H].
    + destruct (PL _ H) as [_ B]. destruct s as [|c t]; cbn; [eexists _, _; split; [reflexivity|intros []]|].
      eexists _, _. split; [reflexivity|]. intro J. apply in_app_iff in J as [J|[J|[]]]; [|discriminate]. apply B. right. exact J.
    + apply (FIN (map (fun s => s ++ $":") [$"footnote"; $"image"; $"indexterm"; $"indexterm2"; $"anchor"; $"audio"; $"icon"; $"kbd";
        $"link"; $"pass"; $"btn"; $"menu"; $"mailto"; $"toc"; $"xref"; $"video"])); [|reflexivity]. apply (in_map (fun s => s ++ $":") _ _ H).
  - eexists _, _. split; [reflexivity|]. intro J. apply in_app_iff in J as [J|J].
    + apply (H0 _ J). vm_compute. tauto.
    + cbn in J. destruct J as [J|J]; [discriminate|]. revert J. eapply NL; [|exact H3]; reflexivity.
  - eexists _, _. split; [reflexivity|]. intro J. apply (H0 _ J). vm_compute. tauto.
Qed.

(** ** expansion byte by byte *)
Lemma last_next {A} : forall (l : list A) c d, last (c :: l) d = last l c.
Proof. induction l as [|a l IH]; intros c d; [reflexivity|]. change (last (c :: a :: l) d) with (last (a :: l) d). rewrite !IH. reflexivity. Qed.
Lemma expanded_plain rep s out refs : forall w prev, ~ In "{"%char w -> expanded rep (last (map Some w) prev) s out refs -> expanded rep prev (w ++ s) (w ++ out) refs.
Proof.
  induction w as [|c w IH]; intros prev N H; [exact H|]. cbn [app]. apply E_byte.
  - intros _ n r _ E. injection E as -> _. apply N. left. reflexivity.
  - apply IH; [intro I; apply N; right; exact I|]. cbn [map] in H. rewrite last_next in H. exact H.
Qed.
Lemma expanded_prev rep prev prev' s out refs : prev <> Some "\"%char -> prev' <> Some "\"%char -> expanded rep prev s out refs -> expanded rep prev' s out refs.
Proof.
  intros A B H. inversion H; subst; [constructor|constructor; assumption|]. constructor; [|assumption]. intros _. apply H0, A.
Qed.
Lemma last_app_prev (x w : bytes) : w <> [] -> last (map Some (x ++ w)) None = last (map Some w) (last (map Some x) None).
Proof.
  intro N. destruct (exists_last N) as (y & a & ->). rewrite app_assoc, !map_app. cbn [map]. rewrite !last_last. reflexivity.
Qed.
(** more fuel changes nothing *)
Lemma read_refs_more get plugins : forall f f' r v, f <= f' -> read_refs get plugins f r = Ret (Some v) -> read_refs get plugins f' r = Ret (Some v).
Proof.
  induction f as [|f IH]; intros f' r v L H; [discriminate|]. destruct f' as [|f']; [lia|]. cbn [read_refs] in *.
  destruct (at_newline r) as [[|]|]; try exact H; destruct (is_eof r) as [[|]|]; try exact H.
  destruct (next_tok plugins r) as [[k r1]|]; [|discriminate]. destruct (push_token get k r1) as [[out ms] r2].
  destruct (read_refs get plugins f r2) as [[[[ks ms'] r3]|]|] eqn:E; try discriminate. rewrite (IH f' _ _ ltac:(lia) E). exact H.
Qed.
Definition valbuf (x z u v : bytes) (lo : loc) : root := mkRoot 0 None [] [mkSource (at_ x z 0) None] (Some (at_ u v 0, Repeat lo)).
Lemma peek_valbuf x z u v lo : peek (valbuf x z u v lo) = Ret (hd_error v).
Proof. unfold peek, valbuf. cbn -[at_ lex_peek]. rewrite peek_at. reflexivity. Qed.
Lemma not_break c l : one_line (c :: l) -> Ascii.eqb c LF || Ascii.eqb c CR = false.
Proof. intros [O1 O2]. apply orb_false_iff. split; apply Ascii.eqb_neq; intros ->; [apply O1|apply O2]; left; reflexivity. Qed.
Lemma line_text_app a c : line_text (a ++ c) = line_text a ++ line_text c.
Proof. unfold line_text. rewrite filter_app, map_app, concat_app. reflexivity. Qed.
Lemma push_other get k w lo r : k <> AttrRef -> push_token get (mkRtok k w lo) r = ([mkRtok k w lo], [], r) /\ line_text [mkRtok k w lo] = w.
Proof. intro N. unfold push_token, line_text. cbn. destruct k; try congruence; cbn; rewrite app_nil_r; split; reflexivity. Qed.
(** a value that was put in is read token by token *)
Lemma read_value get plugins x z lo : forall m v u, length v <= m -> v <> [] -> utf8 v -> one_line v -> ~ In "{"%char v ->
  exists c ks, line_text ks = v /\ forall f ks' ms r3, read_refs get plugins f (here x z) = Ret (Some (ks', ms, r3)) ->
    read_refs get plugins (c + f) (valbuf x z u v lo) = Ret (Some (ks ++ ks', ms, r3)).
Proof.
  induction m as [|m IH]; intros v u Lm NE U O NB; [destruct v; [congruence|cbn in Lm; lia]|].
  destruct (next_some [] u v 0 NE U) as (k & w & z0 & E & NW & U0 & L & P & NT).
  destruct (brace_lexeme [] k w) as [_ BR]; [intros p []|exact L|].
  assert (NK : k <> AttrRef). { intro K. destruct (BR K) as (n & -> & _). apply NB. rewrite E. left. reflexivity. }
  assert (O' : one_line z0) by (rewrite E in O; apply one_line_app in O; tauto).
  assert (NB' : ~ In "{"%char z0) by (intro I; apply NB; rewrite E; apply in_or_app; right; exact I).
  assert (ST : forall f, read_refs get plugins (S f) (valbuf x z u v lo) =
    match read_refs get plugins f (match z0 with [] => here x z | _ => valbuf x z (u ++ w) z0 lo end) with
    | Panic => Panic | Ret None => Ret None | Ret (Some (ks, ms', r3)) => Ret (Some (mkRtok k w lo :: ks, ms', r3)) end).
  { intro f. cbn [read_refs]. unfold at_newline, is_eof. rewrite peek_valbuf. destruct v as [|c v]; [congruence|]. cbn [hd_error is].
    rewrite (not_break _ _ O). unfold next_tok, valbuf. cbn [tmp]. rewrite NT, eof_at. unfold relocate. cbn [t_kind t_lexeme idx next_idx stack sources].
    destruct (push_other get k w lo (mkRoot 0 None [] [mkSource (at_ x z 0) None] (if match z0 with [] => true | _ :: _ => false end then None else Some (at_ (u ++ w) z0 0, Repeat lo))) NK) as [-> _].
    destruct z0; reflexivity. }
  assert (LT : line_text [mkRtok k w lo] = w) by (apply (push_other get k w lo (here x z) NK)).
  destruct z0 as [|d z0].
  - exists 1, [mkRtok k w lo]. rewrite app_nil_r in E. split; [congruence|]. intros f ks' ms r3 H. cbn [Nat.add]. rewrite ST, H. reflexivity.
  - assert (LE : length v = length w + length (d :: z0)) by (rewrite E; apply app_length). assert (0 < length w) by (destruct w; [congruence|cbn; lia]).
    destruct (IH (d :: z0) (u ++ w)) as (c & ks & T & R); [lia|discriminate|exact U0|exact O'|exact NB'|].
    exists (S c), (mkRtok k w lo :: ks). split; [change (mkRtok k w lo :: ks) with ([mkRtok k w lo] ++ ks); rewrite line_text_app, LT, T; congruence|].
    intros f ks' ms r3 H'. cbn [Nat.add]. rewrite ST, (R _ _ _ _ H'). reflexivity.
Qed.
(** a reference begins here, or it does not *)
Lemma reference_dec s : (exists n r, ref_name n /\ s = reference n ++ r) \/ (forall n r, ref_name n -> s <> reference n ++ r).
Proof.
  destruct s as [|c t]; [right; intros n r _; discriminate|].
  destruct (Ascii.eqb_spec c "{"%char) as [->|N]; [|right; intros n r _ E; injection E as -> _; congruence].
  destruct (run_split name_byte t) as (p & q & E & _ & A & C). destruct (list_eq_dec ascii_dec p []) as [->|NP].
  - right. intros n r [NE NA] E'. injection E' as E'. cbn in E. destruct n as [|a n]; [congruence|]. pose proof (C a _ (eq_trans (eq_sym E) E')) as K. apply Forall_inv in NA. congruence.
  - destruct q as [|d q]; [|destruct (Ascii.eqb_spec d "}"%char) as [->|ND]].
    + right. intros n r [_ NA] E'. injection E' as E'. rewrite app_nil_r in E. subst t. unfold all_of in A. rewrite Forall_forall in A.
      specialize (A "}"%char). rewrite E' in A. assert (false = true) by (apply A; rewrite <- app_assoc; apply in_or_app; right; left; reflexivity). discriminate.
    + left. exists p, q. split; [split; assumption|]. subst t. unfold reference. cbn. rewrite <- app_assoc. reflexivity.
    + right. intros n r [_ NA] E'. injection E' as E'. subst t.
      assert (R1 : LexerModel.run name_byte (p ++ d :: q) = length p) by (apply run_app; assumption).
      rewrite E' in R1. rewrite <- app_assoc in R1. rewrite run_app in R1; [|exact NA|intros a y K; injection K as <- _; reflexivity].
      assert (K : nth_error (p ++ d :: q) (length p) = nth_error (n ++ $"}" ++ r) (length p)) by (rewrite E', <- app_assoc; reflexivity).
      rewrite nth_pre0, <- R1, nth_pre0 in K. cbn in K. congruence.
Qed.
Lemma reference_prefix n r n' r' : ref_name n -> ref_name n' -> reference n ++ r = reference n' ++ r' -> n = n' /\ r = r'.
Proof.
  intros [_ A] [_ A'] E. unfold reference in E. cbn in E. injection E as E. rewrite <- !app_assoc in E.
  assert (L : length n = length n').
  { assert (RA : forall m q, all_of name_byte m -> LexerModel.run name_byte (m ++ ["}"%char] ++ q) = length m).
    { intros m q B. apply run_app; [exact B|]. intros a y K. injection K as <- _. reflexivity. }
    rewrite <- (RA n r A), E. apply RA, A'. }
  pose proof (prefix_same _ _ _ _ E L) as ->. apply app_inv_head in E. injection E as ->. auto.
Qed.

(** ** one line *)
Section LINE.
Variables (get : lookup) (plugins : list bytes) (rep : bytes -> bytes).
Hypothesis PL : word_plugins plugins.
Hypothesis IV : inert_values get.
Hypothesis REP : replacement get rep.
Lemma rep_known n s : get (lowercase n) = Some (AStr s) -> rep n = b s /\ known get n.
Proof.
  intro G. assert (D : defined get n (b s)) by (apply defined_get; eauto). split; [apply (REP n), D|exists (b s); exact D].
Qed.
Lemma rep_unknown n : (forall s, get (lowercase n) <> Some (AStr s)) -> undefined get n.
Proof. intros N v D. apply defined_get in D as (s & G & _). exact (N s G). Qed.
Definition left_out : bool := match missing_of (get ($"attribute-missing")) with MDrop | MDropLine => true | _ => false end.
Lemma rep_missing n : undefined get n -> rep n = if left_out then [] else reference n.
Proof.
  intro U. destruct (proj2 (REP n) U) as [A B]. unfold left_out.
  pose proof (missing_of_spec get ($"drop") MDrop ltac:(cbn; tauto)) as M1. pose proof (missing_of_spec get ($"drop-line") MDropLine ltac:(cbn; tauto)) as M2.
  destruct (missing_of (get ($"attribute-missing"))).
  - apply B; intro K; [apply M1 in K|apply M2 in K]; discriminate.
  - apply B; intro K; [apply M1 in K|apply M2 in K]; discriminate.
  - apply A. left. apply M1. reflexivity.
  - apply A. right. apply M2. reflexivity.
Qed.
Lemma line_refs z : forall m l x, length l <= m -> one_line l -> utf8 (l ++ LF :: z) ->
  exists f ks ms refs, read_refs get plugins f (here x (l ++ LF :: z)) = Ret (Some (ks, ms, here (x ++ l) (LF :: z))) /\
    expanded rep (last (map Some x) None) l (line_text ks) refs /\ undefined_among get refs ms.
Proof.
  assert (NIL : forall x, exists f ks ms refs, read_refs get plugins f (here x ([] ++ LF :: z)) = Ret (Some (ks, ms, here (x ++ []) (LF :: z))) /\
    expanded rep (last (map Some x) None) [] (line_text ks) refs /\ undefined_among get refs ms).
  { intro x. exists 1, [], [], []. split; [|split; constructor]. rewrite app_nil_r. cbn [read_refs app]. unfold at_newline, is_eof. rewrite peek_here. reflexivity. }
  induction m as [|m IH]; intros l x Lm O U.
  { destruct l as [|c l]; [|cbn in Lm; lia]. apply NIL. }
  destruct l as [|c l]; [apply NIL|].
  assert (PL' : forall p, In p plugins -> ~ In newline p) by (intros p I; apply (PL p I)).
  destruct (next_some plugins x ((c :: l) ++ LF :: z) 0) as (k & w & z0 & E & NW & U0 & L & P & NT); [discriminate|exact U|].
  assert (NK : k <> Newline).
  { intros ->. apply newline_lexeme in L. destruct O as [O1 O2]. destruct L as [->| ->]; cbn in E; injection E as -> E; [apply O1|apply O2]; left; reflexivity. }
  assert (NN : ~ In LF w) by (apply (lexeme_no_newline plugins k w PL' L NK)).
  destruct (prefix_le _ _ _ _ (eq_sym E) NN) as (l' & El & ->).
  assert (LE : length (c :: l) = length w + length l') by (rewrite El; apply app_length). assert (0 < length w) by (destruct w; [congruence|cbn; lia]).
  assert (O' : one_line l') by (rewrite El in O; apply one_line_app in O; tauto).
  destruct (IH l' (x ++ w)) as (f & ks & ms & refs & R & X & M); [lia|exact O'|exact U0|].
  rewrite <- app_assoc, <- El in R. destruct (brace_lexeme plugins k w PL L) as [(c0 & t & Ew & NB) BR].
  assert (ST : forall g out ms0 r2, push_token get (mkRtok k w (mkLoc (length x + 0) (length x + length w + 0) 0)) (here (x ++ w) (l' ++ LF :: z)) = (out, ms0, r2) ->
    forall ks1 ms1 r3, read_refs get plugins g r2 = Ret (Some (ks1, ms1, r3)) ->
    read_refs get plugins (S g) (here x ((c :: l) ++ LF :: z)) = Ret (Some (out ++ ks1, ms0 ++ ms1, r3))).
  { intros g out ms0 r2 PT ks1 ms1 r3 RR. cbn [read_refs]. unfold at_newline, is_eof. rewrite peek_here. cbn [app hd_error is]. rewrite (not_break _ _ O).
    change (c :: l ++ LF :: z) with ((c :: l) ++ LF :: z). rewrite (next_here _ _ _ _ _ _ NT). unfold located. cbn [t_kind t_lexeme t_start t_end].
    rewrite PT, RR. reflexivity. }
  set (lo := mkLoc _ _ _) in ST. clearbody lo.
  assert (AR : {k = AttrRef} + {k <> AttrRef}) by (destruct k; first [left; reflexivity|right; discriminate]). destruct AR as [->|NA].
  - destruct (BR eq_refl) as (n & -> & NM). cbn [placed] in P.
    assert (X' : expanded rep (Some "}"%char) l' (line_text ks) refs).
    { rewrite last_app_prev in X by discriminate. unfold reference in X. rewrite !map_app in X. cbn [b list_ascii_of_string map] in X. rewrite app_assoc, last_last in X. exact X. }
    destruct (get (lowercase n)) as [[v|v]|] eqn:G.
    + destruct (rep_known n v G) as [RP KN]. destruct (IV _ _ G) as (V1 & V2 & V3 & V4).
      assert (PT : push_token get (mkRtok AttrRef (reference n) lo) (here (x ++ reference n) (l' ++ LF :: z)) =
        ([mkRtok AttrRef (reference n) lo], [], match b v with [] => here (x ++ reference n) (l' ++ LF :: z) | _ => valbuf (x ++ reference n) (l' ++ LF :: z) [] (b v) lo end)).
      { unfold push_token. cbn [k_kind k_lexeme k_loc]. rewrite attr_name_of, G. destruct (b v); reflexivity. }
      assert (LT : forall q, line_text (mkRtok AttrRef (reference n) lo :: q) = line_text q) by reflexivity.
      destruct (list_eq_dec ascii_dec (b v) []) as [EV|NV].
      * rewrite EV in PT. exists (S f), (mkRtok AttrRef (reference n) lo :: ks), ms, (n :: refs). split; [apply (ST f _ _ _ PT _ _ _ R)|].
        split; [|apply U_known; assumption]. rewrite El, LT. replace (line_text ks) with (rep n ++ line_text ks) by (rewrite RP, EV; reflexivity). apply E_ref; assumption.
      * destruct (read_value get plugins (x ++ reference n) (l' ++ LF :: z) lo (length (b v)) (b v) [] (le_n _) NV V1 (conj V2 V3) V4) as (q & kv & TV & RV).
        exists (S (q + f)), (mkRtok AttrRef (reference n) lo :: kv ++ ks), ms, (n :: refs).
        split; [refine (ST _ _ _ _ PT (kv ++ ks) ms _ _); destruct (b v) eqn:EV; [congruence|]; apply RV, R|].
        split; [|apply U_known; assumption]. rewrite El, LT, line_text_app, TV, <- RP. apply E_ref; assumption.
    + assert (UN : undefined get n) by (apply rep_unknown; congruence). pose proof (rep_missing n UN) as RM.
      assert (PT : push_token get (mkRtok AttrRef (reference n) lo) (here (x ++ reference n) (l' ++ LF :: z)) =
        (if left_out then [] else [mkRtok Word (reference n) lo], [n], here (x ++ reference n) (l' ++ LF :: z))).
      { unfold push_token, left_out. cbn [k_kind k_lexeme k_loc]. rewrite attr_name_of, G. destruct (missing_of _); reflexivity. }
      eexists (S f), _, (n :: ms), (n :: refs). split; [apply (ST f _ _ _ PT _ _ _ R)|]. split; [|apply U_missing; assumption].
      rewrite El, line_text_app. replace (line_text (if left_out then [] else [mkRtok Word (reference n) lo])) with (rep n); [apply E_ref; assumption|].
      rewrite RM. destruct left_out; [reflexivity|]. unfold line_text. cbn. rewrite app_nil_r. reflexivity.
    + assert (UN : undefined get n) by (apply rep_unknown; congruence). pose proof (rep_missing n UN) as RM.
      assert (PT : push_token get (mkRtok AttrRef (reference n) lo) (here (x ++ reference n) (l' ++ LF :: z)) =
        (if left_out then [] else [mkRtok Word (reference n) lo], [n], here (x ++ reference n) (l' ++ LF :: z))).
      { unfold push_token, left_out. cbn [k_kind k_lexeme k_loc]. rewrite attr_name_of, G. destruct (missing_of _); reflexivity. }
      eexists (S f), _, (n :: ms), (n :: refs). split; [apply (ST f _ _ _ PT _ _ _ R)|]. split; [|apply U_missing; assumption].
      rewrite El, line_text_app. replace (line_text (if left_out then [] else [mkRtok Word (reference n) lo])) with (rep n); [apply E_ref; assumption|].
      rewrite RM. destruct left_out; [reflexivity|]. unfold line_text. cbn. rewrite app_nil_r. reflexivity.
  - destruct (push_other get k w lo (here (x ++ w) (l' ++ LF :: z)) NA) as [PT LT].
    exists (S f), (mkRtok k w lo :: ks), ms, refs. split; [apply (ST f _ _ _ PT _ _ _ R)|]. split; [|exact M].
    change (mkRtok k w lo :: ks) with ([mkRtok k w lo] ++ ks). rewrite line_text_app, LT, El, Ew. cbn [app]. apply E_byte.
    + intros NP n r NM EQ.
      assert (EF : (c :: l) ++ LF :: z = reference n ++ r ++ LF :: z) by (rewrite El, Ew, app_assoc, <- EQ; reflexivity).
      rewrite EF in NT. destruct NM as [N1 N2]. pose proof (recognise_attr_ref plugins x n (r ++ LF :: z) 0 NP N1 N2) as RA. cbn zeta in RA.
      unfold reference in NT. rewrite RA in NT. congruence.
    + apply expanded_plain; [exact NB|]. rewrite last_app_prev, Ew in X by exact NW. cbn [map] in X. rewrite last_next in X. exact X.
Qed.

(** ** all lines *)
Lemma next_refs_line_more : forall f f' r v, f <= f' -> next_refs_line get plugins f r = Ret (Some v) -> next_refs_line get plugins f' r = Ret (Some v).
Proof.
  induction f as [|f IH]; intros f' r v Lf H; [discriminate|]. destruct f' as [|f']; [lia|]. cbn [next_refs_line] in *.
  destruct (is_eof r) as [[|]|]; try exact H. destruct (read_refs get plugins f r) as [[[[ks ms] r1]|]|] eqn:E; try discriminate.
  rewrite (read_refs_more get plugins f f' _ _ ltac:(lia) E). destruct (skip_newline r1) as [r2|]; [|discriminate].
  destruct (missing_of _); try exact H. destruct ms; [exact H|]. apply (IH f' _ _ ltac:(lia) H).
Qed.
Lemma all_refs_lines_more : forall f f' r v, f <= f' -> all_refs_lines get plugins f r = Ret (Some v) -> all_refs_lines get plugins f' r = Ret (Some v).
Proof.
  induction f as [|f IH]; intros f' r v Lf H; [discriminate|]. destruct f' as [|f']; [lia|]. cbn [all_refs_lines] in *.
  destruct (next_refs_line get plugins f r) as [[[[[l|] ws] r1]|]|] eqn:E; try discriminate; rewrite (next_refs_line_more f f' _ _ ltac:(lia) E); [|exact H].
  destruct (all_refs_lines get plugins f r1) as [[[ls ws']|]|] eqn:E'; try discriminate. rewrite (IH f' _ _ ltac:(lia) E'). exact H.
Qed.
Lemma document_utf8 ls : Forall text_line ls -> utf8 (document ls).
Proof.
  induction 1 as [|l ls (U & _) _ IH]; [apply is_utf8_spec; reflexivity|]. unfold document. cbn [map concat]. apply utf8_app; [|exact IH].
  apply utf8_app; [exact U|apply is_utf8_spec; reflexivity].
Qed.
Definition fresh (x : bytes) : Prop := last (map Some x) None <> Some "\"%char.
Lemma document_refs : forall ls x, Forall text_line ls -> fresh x ->
  exists f outs ws, all_refs_lines get plugins f (here x (document ls)) = Ret (Some (outs, ws)) /\ lines_read get rep ls outs ws.
Proof.
  induction ls as [|l ls IH]; intros x T FR.
  { exists 2, [], []. split; [|constructor]. cbn [all_refs_lines next_refs_line document map concat]. rewrite eof_here. reflexivity. }
  inversion T as [|? ? (U & N1 & N2) T']; subst. assert (ED : document (l :: ls) = l ++ LF :: document ls) by (unfold document; cbn [map concat]; rewrite <- app_assoc; reflexivity).
  assert (UD : utf8 (l ++ LF :: document ls)) by (rewrite <- ED; apply document_utf8; exact T).
  destruct (line_refs (document ls) (length l) l x (le_n _) (conj N1 N2) UD) as (f & ks & ms & refs & R & X & M).
  assert (FR' : fresh ((x ++ l) ++ [LF])) by (unfold fresh; rewrite map_app; cbn [map]; rewrite last_last; discriminate).
  destruct (IH ((x ++ l) ++ [LF]) T' FR') as (g & outs & ws & RA & LR).
  apply (expanded_prev rep _ None) in X; [|exact FR|discriminate]. rewrite ED.
  assert (NE : is_eof (here x (l ++ LF :: document ls)) = Ret false) by (rewrite eof_here; destruct l; reflexivity).
  pose proof (missing_of_spec get ($"warn") MWarn ltac:(cbn; tauto)) as MW. pose proof (missing_of_spec get ($"drop-line") MDropLine ltac:(cbn; tauto)) as MD.
  assert (KEEP : forall wd, (match missing_of (get ($"attribute-missing")), ms with
      | MDropLine, _ :: _ => False | MWarn, _ => wd = ms | _, _ => wd = [] end) ->
    exists f0 outs0 ws0, all_refs_lines get plugins f0 (here x (l ++ LF :: document ls)) = Ret (Some (outs0, ws0)) /\ lines_read get rep (l :: ls) outs0 ws0).
  { intros wd K. exists (S (S (f + g))), (line_text ks :: outs), (wd ++ ws). split.
    - cbn [all_refs_lines next_refs_line]. rewrite NE, (read_refs_more get plugins f (f + g) _ _ ltac:(lia) R), newline_here.
      assert (E2 : all_refs_lines get plugins (S (f + g)) (here ((x ++ l) ++ [LF]) (document ls)) = Ret (Some (outs, ws))) by (eapply all_refs_lines_more; [|exact RA]; lia).
      cbn [all_refs_lines] in E2. destruct (missing_of _); [| | |destruct ms]; subst; try rewrite E2; try reflexivity. destruct K.
    - apply (R_kept get rep l ls (line_text ks) outs refs ms wd ws X M); [| | |exact LR].
      + intro D. apply MD in D. rewrite D in K. destruct ms; [reflexivity|destruct K].
      + intro D. apply MW in D. rewrite D in K. exact K.
      + intro D. destruct (missing_of (get ($"attribute-missing"))); try exact K; [destruct D; apply MW; reflexivity|destruct ms; [exact K|destruct K]]. }
  destruct (missing_of (get ($"attribute-missing"))) eqn:MM; [apply (KEEP []); reflexivity|apply (KEEP ms); reflexivity|apply (KEEP []); reflexivity|].
  destruct ms as [|m0 ms]; [apply (KEEP []); reflexivity|]. clear KEEP.
  exists (S (S (f + g))), outs, ws. split.
  - destruct g as [|g]; [discriminate|]. cbn [all_refs_lines] in RA |- *.
    assert (ST : next_refs_line get plugins (S (f + S g)) (here x (l ++ LF :: document ls)) = next_refs_line get plugins (f + S g) (here ((x ++ l) ++ [LF]) (document ls))).
    { cbn [next_refs_line]. rewrite NE, (read_refs_more get plugins f (f + S g) _ _ ltac:(lia) R), newline_here, MM. reflexivity. }
    rewrite ST. destruct (next_refs_line get plugins g (here ((x ++ l) ++ [LF]) (document ls))) as [[[[[o|] w0] r1]|]|] eqn:E0; try discriminate;
      rewrite (next_refs_line_more g (f + S g) _ _ ltac:(lia) E0); [|exact RA].
    destruct (all_refs_lines get plugins g r1) as [[[a1 a2]|]|] eqn:E1; try discriminate. 
    change (match all_refs_lines get plugins (S (f + S g)) r1 with Ret (Some (ls0, ws')) => Ret (Some (o :: ls0, w0 ++ ws')) | x0 => x0 end = Ret (Some (outs, ws))).
    rewrite (all_refs_lines_more g (S (f + S g)) _ _ ltac:(lia) E1). exact RA.
  - apply (R_dropped get rep l ls (line_text ks) outs refs (m0 :: ms) ws X M); [apply MD; reflexivity|discriminate|exact LR].
Qed.
End LINE.

(** ** references in values *)
Lemma white_no_brace w : In w white -> ~ In "}"%char w.
Proof. intro I. assert (F : forallb (fun w => negb (contains_byte "}"%char w)) white = true) by reflexivity. rewrite forallb_forall in F. specialize (F w I).
  intro J. apply contains_byte_In in J. rewrite J in F. discriminate. Qed.
Lemma prefix_or (w r n t : bytes) : n ++ "}"%char :: t = w ++ r -> ~ In "}"%char w -> exists z, n = w ++ z.
Proof.
  revert n. induction w as [|c w IH]; intros n E N; [exists n; reflexivity|]. destruct n as [|d n]; cbn in E.
  - injection E as <- _. destruct N. left. reflexivity.
  - injection E as -> E. destruct (IH n E) as (z & ->); [intro I; apply N; right; exact I|]. exists z. reflexivity.
Qed.
Lemma name_run_of n t : ~ In "}"%char n -> (forall a w z, In w white -> n <> a ++ w ++ z) -> name_run (n ++ "}"%char :: t) = n.
Proof.
  induction n as [|c n IH]; intros NB NW.
  - cbn [app name_run]. destruct (strip_any white ("}"%char :: t)); reflexivity.
  - cbn [app name_run]. destruct (strip_any white (c :: n ++ "}"%char :: t)) as [y|] eqn:E.
    + apply strip_any_some in E as (w & I & E). destruct (prefix_or w y (c :: n) t E (white_no_brace w I)) as (z & Z). destruct (NW [] w z I Z).
    + destruct (Ascii.eqb_spec c "}"%char) as [->|_]; [destruct NB; left; reflexivity|]. f_equal. apply IH; [intro J; apply NB; right; exact J|].
      intros a w z I Z. apply (NW (c :: a) w z I). cbn. rewrite Z. reflexivity.
Qed.
Lemma name_run_name : forall t, ~ In "}"%char (name_run t) /\ (forall a w z, In w white -> name_run t <> a ++ w ++ z) /\ t = name_run t ++ skipn (length (name_run t)) t.
Proof.
  assert (NIL : forall a w z, In w white -> [] <> a ++ w ++ z :> bytes). { intros a w z I E. destruct (white_head w I) as (d & r & ->). destruct a; discriminate. }
  induction t as [|c t (IH1 & IH2 & IH3)]; [split; [intros []|split; [exact NIL|reflexivity]]|].
  cbn [name_run]. destruct (strip_any white (c :: t)) as [y|] eqn:E; [split; [intros []|split; [exact NIL|reflexivity]]|].
  destruct (Ascii.eqb_spec c "}"%char) as [->|NC]; [split; [intros []|split; [exact NIL|reflexivity]]|].
  split; [|split].
  - intros [J|J]; [congruence|exact (IH1 J)].
  - intros a w z I Z. destruct a as [|d a]; [|injection Z as _ Z; exact (IH2 a w z I Z)].
    apply (strip_any_none _ _ E w (z ++ skipn (length (name_run t)) t) I). rewrite app_assoc. cbn in Z. rewrite <- Z. cbn. f_equal. exact IH3.
  - cbn [length skipn app]. f_equal. exact IH3.
Qed.
(** what stands at the front, as the code decides it *)
Definition front (s : bytes) : option (bytes * bytes) :=
  match s with
  | c :: t => if Ascii.eqb c "{"%char then
      match name_run t, skipn (length (name_run t)) t with
      | _ :: _, d :: rest => if Ascii.eqb d "}"%char then Some (name_run t, rest) else None
      | _, _ => None
      end else None
  | [] => None
  end.
Lemma front_some s n r : front s = Some (n, r) <-> val_name n /\ s = reference n ++ r.
Proof.
  split.
  - unfold front. destruct s as [|c t]; [discriminate|]. destruct (Ascii.eqb_spec c "{"%char) as [->|]; [|discriminate].
    destruct (name_run_name t) as (A & B & C). destruct (name_run t) as [|a m] eqn:E; [discriminate|]. destruct (skipn _ t) as [|d rest]; [discriminate|].
    destruct (Ascii.eqb_spec d "}"%char) as [->|]; [|discriminate]. intro H. injection H as <- <-. split; [split; [discriminate|split; assumption]|].
    rewrite C. unfold reference. cbn. rewrite <- app_assoc. reflexivity.
  - intros [(NE & NB & NW) ->]. unfold reference, front. cbn [b list_ascii_of_string app]. rewrite <- app_assoc. cbn [app].
    rewrite (name_run_of n r NB NW). replace (Ascii.eqb "{"%char "{"%char) with true by reflexivity. destruct n as [|a n]; [congruence|]. rewrite skipn_pre. reflexivity.
Qed.
Lemma front_none s : front s = None <-> forall n r, val_name n -> s <> reference n ++ r.
Proof.
  split.
  - intros H n r V E. assert (front s = Some (n, r)) by (apply front_some; auto). congruence.
  - intro H. destruct (front s) as [[n r]|] eqn:E; [|reflexivity]. apply front_some in E as [V E]. destruct (H n r V E).
Qed.
Lemma replace_step get f s : replace_vals get (S f) s =
  match front s with Some (n, r) => value_of get n ++ replace_vals get f r | None => match s with [] => [] | c :: t => c :: replace_vals get f t end end.
Proof.
  unfold front. cbn [replace_vals]. destruct s as [|c t]; [reflexivity|]. destruct (Ascii.eqb c "{"%char); [|reflexivity].
  destruct (name_run t); [reflexivity|]. destruct (skipn _ t) as [|d r]; [reflexivity|]. destruct (Ascii.eqb d "}"%char); reflexivity.
Qed.
Lemma replace_substituted get : forall f s, length s <= f -> substituted get s (replace_vals get f s).
Proof.
  induction f as [|f IH]; intros s L; [destruct s; [constructor|cbn in L; lia]|]. rewrite replace_step. destruct (front s) as [[n r]|] eqn:E.
  - apply front_some in E as [V ->]. assert (LR : length r <= f) by (unfold reference in L; rewrite !app_length in L; cbn in L; lia).
    unfold value_of. destruct (get n) as [[v|v]|] eqn:G.
    + apply V_ref; [exact V|exact G|apply IH, LR].
    + apply V_ref_undefined; [exact V|intro v0; rewrite G; discriminate|apply IH, LR].
    + apply V_ref_undefined; [exact V|intro v0; rewrite G; discriminate|apply IH, LR].
  - destruct s as [|c t]; [constructor|]. apply V_byte; [apply front_none, E|]. apply IH. cbn in L. lia.
Qed.
Lemma substituted_one get s out : substituted get s out -> forall out', substituted get s out' -> out' = out.
Proof.
  assert (RF : forall n r, reference n ++ r <> []) by (intros n r; discriminate).
  assert (INJ : forall n r n' r', val_name n -> val_name n' -> reference n ++ r = reference n' ++ r' -> n = n' /\ r = r').
  { intros n r n' r' V V' E. assert (F : front (reference n ++ r) = Some (n, r)) by (apply front_some; auto).
    assert (F' : front (reference n ++ r) = Some (n', r')) by (apply front_some; auto). rewrite F in F'. injection F' as -> ->. auto. }
  induction 1 as [|n v s out V G H IH|n s out V G H IH|c s out N H IH]; intros out' H'.
  - inversion H'; reflexivity.
  - remember (reference n ++ s) as y eqn:E. destruct H' as [|n' v' s' o' V' G' K|n' s' o' V' G' K|c' s' o' N' K]; [discriminate| | |].
    + destruct (INJ _ _ _ _ V' V E) as [-> ->]. rewrite (IH _ K). congruence.
    + destruct (INJ _ _ _ _ V' V E) as [-> ->]. destruct (G' _ G).
    + destruct (N' n s V E).
  - remember (reference n ++ s) as y eqn:E. destruct H' as [|n' v' s' o' V' G' K|n' s' o' V' G' K|c' s' o' N' K]; [discriminate| | |].
    + destruct (INJ _ _ _ _ V' V E) as [-> ->]. destruct (G _ G').
    + destruct (INJ _ _ _ _ V' V E) as [-> ->]. exact (IH _ K).
    + destruct (N' n s V E).
  - remember (c :: s) as y eqn:E. destruct H' as [|n' v' s' o' V' G' K|n' s' o' V' G' K|c' s' o' N' K]; [discriminate| | |].
    + destruct (N n' s' V' eq_refl).
    + destruct (N n' s' V' eq_refl).
    + injection E as -> ->. rewrite (IH _ K). reflexivity.
Qed.
Lemma expanded_one rep prev s out refs : expanded rep prev s out refs -> forall out' refs', expanded rep prev s out' refs' -> out' = out /\ refs' = refs.
Proof.
  induction 1 as [prev|prev n s out refs P V H IH|prev c s out refs N H IH]; intros out' refs' H'.
  - inversion H'; split; reflexivity.
  - remember (reference n ++ s) as y eqn:E. destruct H' as [p|p n' s' o' r' P' V' K|p c' s' o' r' N' K]; [discriminate| |].
    + destruct (reference_prefix _ _ _ _ V' V E) as [-> ->]. destruct (IH _ _ K) as [-> ->]. auto.
    + destruct (N' P n s V E).
  - remember (c :: s) as y eqn:E. destruct H' as [p|p n' s' o' r' P' V' K|p c' s' o' r' N' K]; [discriminate| |].
    + destruct (N P' n' s' V' eq_refl).
    + injection E as -> ->. destruct (IH _ _ K) as [-> ->]. auto.
Qed.
Lemma expanded_total rep : forall m s prev, length s <= m -> exists out refs, expanded rep prev s out refs.
Proof.
  induction m as [|m IH]; intros s prev L; [destruct s; [|cbn in L; lia]; eexists _, _; constructor|].
  destruct s as [|c s]; [eexists _, _; constructor|].
  assert (BY : (prev <> Some "\"%char -> forall n r, ref_name n -> c :: s <> reference n ++ r) -> exists out refs, expanded rep prev (c :: s) out refs).
  { intro N. destruct (IH s (Some c)) as (o & r & X); [cbn in L; lia|]. eexists _, _. apply E_byte; eassumption. }
  assert (D : {prev = Some "\"%char} + {prev <> Some "\"%char}) by (repeat decide equality). destruct D as [D|D]; [apply BY; congruence|].
  destruct (reference_dec (c :: s)) as [(n & r & V & E)|N]; [|apply BY; auto].
  destruct (IH r (Some "}"%char)) as (o & rs & X).
  { apply (f_equal (@length _)) in E. unfold reference in E. rewrite !app_length in E. cbn in E, L. lia. }
  rewrite E. eexists _, _. apply E_ref; eassumption.
Qed.
(** the replacement exists *)
Definition the_replacement (get : lookup) (n : bytes) : bytes :=
  match get (lowercase n) with Some (AStr v) => b v | _ => if left_out get then [] else reference n end.
Lemma the_replacement_ok get : replacement get (the_replacement get).
Proof.
  pose proof (missing_of_spec get ($"drop") MDrop ltac:(cbn; tauto)) as M1. pose proof (missing_of_spec get ($"drop-line") MDropLine ltac:(cbn; tauto)) as M2.
  intro n. split.
  - intros v D. apply defined_get in D as (s & G & ->). unfold the_replacement. rewrite G. reflexivity.
  - intro U. assert (E : the_replacement get n = if left_out get then [] else reference n).
    { unfold the_replacement. destruct (get (lowercase n)) as [[v|v]|] eqn:G; try reflexivity. destruct (U (b v)). apply defined_get. eauto. }
    rewrite E. unfold left_out. split.
    + intros [K|K]; [apply M1 in K|apply M2 in K]; rewrite K; reflexivity.
    + intros K1 K2. destruct (missing_of _); try reflexivity; [destruct K1; apply M1|destruct K2; apply M2]; reflexivity.
Qed.
