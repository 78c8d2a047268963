(** The history theorem: reads and pushes deliver what the stack of token streams delivers. *)
From Verif Require Import Base Utf8 LexerModel LexerSpec LexerProofs RootModel RootSpec RootProofs RootStepProofs.

Lemma tokens_mono plugins : forall f l ts f', tokens plugins f l = Ret (Some ts) -> f <= f' -> tokens plugins f' l = Ret (Some ts).
Proof.
  induction f as [|f IH]; intros l ts f' H L; [discriminate|]. destruct f' as [|f']; [lia|]. cbn [tokens] in *.
  destruct (next_token plugins l) as [[[t|] l']|]; [|exact H|discriminate].
  destruct (tokens plugins f l') as [[q|]|] eqn:E; try discriminate. rewrite (IH _ _ f' E) by lia. exact H.
Qed.
Lemma tokens_det plugins f f' l ts ts' : tokens plugins f l = Ret (Some ts) -> tokens plugins f' l = Ret (Some ts') -> ts = ts'.
Proof.
  intros A B. apply (tokens_mono _ _ _ _ (max f f')) in A; [|lia]. apply (tokens_mono _ _ _ _ (max f f')) in B; [|lia]. congruence.
Qed.
Definition streams_to (plugins : list bytes) (srcs : list source) (i : nat) (p : nat * list token) : Prop :=
  fst p = i /\ exists s f, nth_error srcs i = Some s /\ tokens plugins f (s_lex s) = Ret (Some (snd p)).
Lemma streams_frame plugins srcs srcs' l sts : (forall j, In j l -> nth_error srcs' j = nth_error srcs j) ->
  Forall2 (streams_to plugins srcs) l sts -> Forall2 (streams_to plugins srcs') l sts.
Proof.
  intros H F. induction F as [|i p l sts P F IH]; constructor.
  - destruct P as [A (s & f & B & C)]. split; [exact A|]. exists s, f. rewrite H; [auto|left; reflexivity].
  - apply IH. intros j I. apply H. right. exact I.
Qed.
Lemma read_sim plugins : forall st i srcs sts k i' st' srcs', chain srcs (i :: st) -> Forall2 (streams_to plugins srcs) (i :: st) sts ->
  read_from plugins i st srcs = Ret (k, (i', st', srcs')) ->
  exists sts', first_token sts = (delivered k, sts') /\ Forall2 (streams_to plugins srcs') (i' :: st') sts'.
Proof.
  assert (ADV : forall i st srcs sts s k w l p, chain srcs (i :: st) -> nth_error srcs i = Some s -> Forall2 (streams_to plugins srcs) (i :: st) (p :: sts) ->
    next_token plugins (s_lex s) = Ret (Some (mkToken k (pos (s_lex s)) (pos (s_lex s) + length w) w), l) -> k <> Eof ->
    exists sts', first_token (p :: sts) = (delivered (located i (mkToken k (pos (s_lex s)) (pos (s_lex s) + length w) w)), sts') /\
      Forall2 (streams_to plugins (set_lex i l srcs)) (i :: st) sts').
  { intros i st srcs sts s k w l [i0 ts] C E F N K. inversion F as [|? ? ? ? P F']; subst. destruct P as [P0 (s' & f & E' & T)]. cbn [fst snd] in *. subst i0.
    rewrite E in E'. injection E' as <-. destruct f as [|f]; [discriminate|]. cbn [tokens] in T. rewrite N in T.
    destruct (tokens plugins f l) as [[q|]|] eqn:TQ; try discriminate. injection T as <-.
    exists ((i, q) :: sts). split.
    - cbn [first_token]. unfold delivered. cbn [located k_kind k_loc k_lexeme t_kind t_start t_end t_lexeme l_src l_start l_end]. destruct k; try reflexivity. contradiction.
    - constructor.
      + split; [reflexivity|]. exists (mkSource l (s_max s)), f. rewrite (nth_set_lex _ _ _ _ _ E), Nat.eqb_refl. auto.
      + eapply streams_frame; [|exact F']. intros j I. rewrite (nth_set_lex _ _ _ _ _ E). pose proof (chain_lt _ _ _ _ C I).
        destruct (Nat.eqb_spec i j); [lia|reflexivity]. }
  assert (END : forall i (st : list nat) srcs s p, nth_error srcs i = Some s -> rest (s_lex s) = [] -> streams_to plugins srcs i p -> p = (i, [])).
  { intros i st srcs s [i0 ts] E R [P0 (s' & f & E' & T)]. cbn [fst snd] in *. subst i0. rewrite E in E'. injection E' as <-.
    destruct f as [|f]; [discriminate|]. cbn [tokens] in T. rewrite (next_done _ _ R) in T. injection T as <-. reflexivity. }
  induction st as [|j st IH]; intros i srcs sts k i' st' srcs' C F; destruct (chain_head _ _ _ C) as (s & E & G); cbn [read_from]; rewrite E;
  (destruct (rest (s_lex s)) as [|c y] eqn:R; [rewrite (next_done _ _ R)|
     destruct (next_more plugins (s_lex s) G) as (k0 & w & z & N & Rw & Nw & Uz & L & M); [congruence|]; rewrite N]).
  - intro H. injection H as <- <- <- <-. inversion F as [|? p ? q P F']; subst. inversion F'; subst. rewrite (END i [] srcs s p E R P) in *.
    exists [(i, [])]. split; [reflexivity|]. constructor; [|constructor]. split; [reflexivity|]. cbn [snd].
    exists (mkSource (move 1 (s_lex s)) (s_max s)), 1. rewrite (nth_set_lex _ _ _ _ _ E), Nat.eqb_refl. split; [reflexivity|]. cbn [tokens s_lex].
    rewrite next_done; [reflexivity|]. rewrite rest_move, R. reflexivity.
  - intro H. injection H as <- <- <- <-. inversion F as [|? p ? q P F']; subst. eapply ADV; eauto. intro Q. subst k0. exact (lexeme_not_eof _ _ L).
  - intro H. inversion F as [|? p ? q P F']; subst. rewrite (END i (j :: st) srcs s p E R P) in *.
    destruct (update_tail srcs i s (move 1 (s_lex s)) (j :: st) _ E C eq_refl) as (C' & _).
    assert (F2 : Forall2 (streams_to plugins (set_lex i (move 1 (s_lex s)) srcs)) (j :: st) q).
    { eapply streams_frame; [|exact F']. intros n I. rewrite (nth_set_lex _ _ _ _ _ E). pose proof (chain_lt _ _ _ _ C I).
      destruct (Nat.eqb_spec i n); [lia|reflexivity]. }
    destruct (IH _ _ _ _ _ _ _ C' F2 H) as (sts' & H1 & H2). exists sts'. split; [|exact H2].
    cbn [first_token]. inversion F2; subst. exact H1.
  - intro H. injection H as <- <- <- <-. inversion F as [|? p ? q P F']; subst. eapply ADV; eauto. intro Q. subst k0. exact (lexeme_not_eof _ _ L).
Qed.

Definition pushes (ops : list op) : nat := length (pushed_texts ops).
Lemma history plugins : forall ops r sts, inv r -> tmp r = None -> Forall2 (streams_to plugins (sources r)) (live r) sts ->
  reads_between ops -> (next_idx r = None \/ forall s d q, ops <> Push s d :: q) ->
  (N.of_nat (length (sources r) + pushes ops) <= 65535)%N -> (forall s, In s (pushed_texts ops) -> utf8 s) ->
  exists out, perform plugins ops r = Ret out /\ expected plugins (length (sources r)) sts ops out.
Proof.
  induction ops as [|o ops IH]; intros r sts I ET F RB NX SZ U; [exists []; split; [reflexivity|constructor]|].
  destruct o as [|s d]; cbn [perform].
  - destruct (next_tok_good plugins r I) as (k & r' & E & I' & TK & LL). rewrite E.
    pose proof I as [C _ _ _]. unfold next_tok in E. rewrite ET in E. destruct (advance_same r) as (A1 & A2 & A3 & A4).
    set (r1 := maybe_advance_source r) in *. clearbody r1. rewrite <- A4, <- A1 in C. rewrite <- A4, <- A1 in F.
    destruct (read_from plugins (idx r1) (stack r1) (sources r1)) as [[k' [[i' st'] srcs']]|] eqn:RF; [|discriminate]. injection E as <- <-.
    destruct (read_sim _ _ _ _ _ _ _ _ _ C F RF) as (sts' & FT & F').
    destruct (IH (mkRoot i' None st' srcs' None) sts') as (out & P & X); [exact I'|reflexivity|exact F'|exact RB|left; reflexivity|rewrite LL; exact SZ|exact U|].
    rewrite P. exists (delivered k' :: out). split; [reflexivity|]. econstructor; [exact FT|]. rewrite LL in X. exact X.
  - assert (EN : next_idx r = None) by (destruct NX as [H|H]; [exact H|exfalso; apply (H s d ops); reflexivity]).
    assert (Us : utf8 s) by (apply U; left; reflexivity).
    assert (PS : pushes (Push s d :: ops) = S (pushes ops)) by reflexivity. rewrite PS in SZ.
    destruct (push_good s d r I EN) as (r' & E & I' & S' & N' & _ & _ & T' & LV & _); [lia|exact Us|]. rewrite E.
    destruct (tokens_good plugins 0 (S (length (whole_lines s))) [] (whole_lines s)) as (ts & TS & _); [lia|apply utf8_whole, Us|].
    change (at_ [] (whole_lines s) 0) with (from_bytes (whole_lines s)) in TS.
    assert (LS : length (sources r') = S (length (sources r))) by (rewrite S', app_length; cbn; lia).
    destruct (IH r' ((length (sources r), ts) :: sts)) as (out & P & X).
    + exact I'.
    + congruence.
    + rewrite LV. constructor.
      * split; [reflexivity|]. cbn [snd]. exists (mkSource (from_bytes (whole_lines s)) d), (S (length (whole_lines s))). rewrite S', nth_error_app2, Nat.sub_diag by lia. auto.
      * eapply streams_frame; [|exact F]. intros j J. destruct I as [[_ FC] _ _ _]. rewrite Forall_forall in FC. destruct (FC j J) as (s0 & E0 & _).
        rewrite S'. apply nth_error_app1, nth_error_Some. congruence.
    + destruct ops as [|[|] ?]; [exact Logic.I|exact RB|destruct RB].
    + right. intros s' d' q Q. subst ops. exact RB.
    + rewrite LS. lia.
    + intros x X. apply U. right. exact X.
    + exists out. split; [exact P|]. econstructor; [exact TS|]. rewrite LS in X. exact X.
Qed.
