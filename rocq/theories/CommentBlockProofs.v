(** Proofs for C79: comment blocks, and what the parser of blocks makes of them. *)
From Verif Require Import Base BlockModel BlockSpec BlockMonoProofs BlockReadProofs BlockLinesProps CommentSpec CommentParseProofs.
Import ListNotations.
Open Scope list_scope.

Definition cd : delimiter := Delim DComment 4.
Lemma hidden_opens x : hidden x -> opens_with cd x = false /\ is_delimiter cd x = false.
Proof.
  destruct x as [|t r]; [now split|]. cbn [hidden]. intros H. assert (K : is_k DelimiterLine t && dkind_beq DComment (delimiter_kind (tx t)) = false).
  { destruct (is_k DelimiterLine t) eqn:K; [|reflexivity]. cbn [andb]. destruct (dkind_beq DComment (delimiter_kind (tx t))) eqn:E; [|reflexivity]. destruct H. split.
    - unfold is_k in K. now apply kind_eqb_eq.
    - unfold delimiter_kind in E. repeat match type of E with context [if ?c then _ else _] => destruct c eqn:?; try discriminate E end. now apply bytes_eqb_eq. }
  split; [cbn [opens_with dk cd]; now rewrite K|]. destruct r; [|reflexivity]. cbn [is_delimiter]. unfold to_delimiter. destruct (is_k DelimiterLine t); [|reflexivity]. cbn [andb is_delim] in *. unfold delimiter_eqb. cbn [dk cd]. now rewrite K.
Qed.
(** the lines between the marks are in one group with the second mark, or there is a blank line in them *)
Lemma group_hidden D L : slashes D -> forall X, Forall hidden X ->
  group (X ++ D :: L) = (map line_of X ++ line_of D :: fst (group L), snd (group L)) \/
  exists g m0 y, group (X ++ D :: L) = (map line_of g, m0) /\ Forall hidden g /\ until_delim cd m0 = (map line_of y, D :: L) /\ Forall hidden y.
Proof.
  intros (i & ->). set (D := [TokI DelimiterLine $"////" i]). induction 1 as [|x X H F IH].
  - left. cbn [app map group]. change (emptyish D) with false. cbn iota. destruct (group L) as [g m]. reflexivity.
  - assert (U : forall X, Forall hidden X -> until_delim cd (X ++ D :: L) = (map line_of X, D :: L)).
    { clear. induction 1 as [|x X H F IH]; [reflexivity|]. cbn [app until_delim map]. rewrite (proj1 (hidden_opens x H)), IH. reflexivity. }
    cbn [app group]. destruct x as [|t x]; [right; exists [], ([] :: X ++ D :: L), ([] :: X); split; [reflexivity|]; split; [constructor|]; split; [exact (U ([] :: X) (Forall_cons [] I F))|now constructor]|].
    destruct (emptyish (t :: x)); [right; exists [], (X ++ D :: L), X; split; [reflexivity|]; split; [constructor|]; split; [exact (U X F)|exact F]|].
    destruct IH as [-> | (g & m0 & y & -> & G & UD & Y)]; [left; reflexivity|]. right. exists ((t :: x) :: g), m0, y. repeat split; auto.
Qed.
Lemma none_hidden X : Forall hidden X -> existsb (fun l => is_delimiter cd (toks l)) (map line_of X) = false /\ forall r, drop_until (fun l => is_delimiter cd (toks l)) (map line_of X ++ r) = drop_until (fun l => is_delimiter cd (toks l)) r.
Proof. induction 1 as [|x X H F [IH1 IH2]]; [now split|]. cbn [map existsb drop_until app]. rewrite toks_line, (proj2 (hidden_opens x H)). split; [exact IH1|exact IH2]. Qed.
Lemma drop_empty_hidden : forall y, Forall (fun l => is_delimiter cd (toks l) = false) y -> Forall (fun l => is_delimiter cd (toks l) = false) (drop_empty y).
Proof. induction 1 as [|l y H F IH]; [constructor|]. cbn [drop_empty]. destruct (toks l) eqn:T; [exact IH|]. constructor; [now rewrite T|exact F]. Qed.
Lemma drop_all y : Forall (fun l => is_delimiter cd (toks l) = false) y -> drop_until (fun l => is_delimiter cd (toks l)) y = [].
Proof. induction 1 as [|l y H F IH]; [reflexivity|]. cbn [drop_until]. now rewrite H. Qed.
Lemma lines_hidden X : Forall hidden X -> Forall (fun l => is_delimiter cd (toks l) = false) (map line_of X).
Proof. induction 1 as [|x X H F IH]; constructor; [|exact IH]. rewrite toks_line. now apply hidden_opens. Qed.
(** what was read with the line before, or not *)
Lemma read_group L s : read_lines (with_peeked (fst (group L)) (with_src (snd (group L)) s)) = read_lines (with_peeked [] (with_src L s)).
Proof.
  destruct L as [|x r]; [reflexivity|]. cbn [group]. destruct x as [|t x]; [reflexivity|]. destruct (emptyish (t :: x)) eqn:E; [unfold read_lines; cbn [fst snd with_peeked with_src peeked src]; cbn [skip_empty]; rewrite E; reflexivity|].
  unfold read_lines. cbn [with_peeked with_src peeked src skip_empty]. rewrite E. destruct (group r) as [g m]. reflexivity.
Qed.
(** the lines up to the second mark are read, and what is left begins with it *)
Lemma read_hidden P D L : slashes D -> forall X s, Forall hidden X -> peeked s = [] -> src s = X ++ D :: L ->
  exists vs s1 s2, read_until cd s = (vs, s1) /\ restore_lines P (drop_until (fun l => is_delimiter cd (toks l)) vs) s1 = Yes tt s2 /\ (exists m k, s2 = with_peeked k (with_src m s)) /\ read_lines s2 = (line_of D :: fst (group L), with_peeked [] (with_src (snd (group L)) s)).
Proof.
  intros SD X s F PK S. assert (DD : is_delimiter cd (toks (line_of D)) = true) by (rewrite toks_line; destruct SD as (i & ->); reflexivity). assert (DE : emptyish D = false) by (destruct SD as (i & ->); reflexivity).
  assert (CA : forall g, Forall hidden g -> read_lines s = (map line_of g ++ line_of D :: fst (group L), with_src (snd (group L)) s) ->
    exists vs s1 s2, read_until cd s = (vs, s1) /\ restore_lines P (drop_until (fun l => is_delimiter cd (toks l)) vs) s1 = Yes tt s2 /\ (exists m k, s2 = with_peeked k (with_src m s)) /\ read_lines s2 = (line_of D :: fst (group L), with_peeked [] (with_src (snd (group L)) s))).
  { intros g G R. exists (map line_of g ++ line_of D :: fst (group L)), (with_src (snd (group L)) s), (with_peeked (line_of D :: fst (group L)) (with_src (snd (group L)) s)). split; [|split; [|split; [now exists (snd (group L)), (line_of D :: fst (group L))|reflexivity]]].
    - unfold read_until. rewrite R. rewrite existsb_app. cbn [existsb]. rewrite DD. cbn [orb]. rewrite orb_true_r. now destruct (map line_of g).
    - rewrite (proj2 (none_hidden g G)). cbn [drop_until]. rewrite DD. unfold restore_lines. change (peeked (with_src (snd (group L)) s)) with (peeked s). now rewrite PK. }
  assert (SK : exists Y, Forall hidden Y /\ skip_empty (X ++ D :: L) = Y ++ D :: L /\ match Y with y :: _ => emptyish y = false | [] => True end).
  { clear - F DE. induction F as [|x X H F IH]; [exists []; cbn [app skip_empty]; now rewrite DE|]. cbn [app skip_empty]. destruct (emptyish x) eqn:E; [exact IH|]. exists (x :: X). repeat split; auto. }
  destruct SK as (Y & FY & SK & NY). destruct FY as [|y Y HY FY].
  - apply (CA []); [constructor|]. unfold read_lines. rewrite PK, S, SK. cbn [app map]. now destruct (group L).
  - destruct (group_hidden D L SD Y FY) as [G | (g & m0 & z & G & HG & U & HZ)].
    + apply (CA (y :: Y)); [now constructor|]. unfold read_lines. rewrite PK, S, SK. cbn [app map]. rewrite G. reflexivity.
    + assert (R : read_lines s = (map line_of (y :: g), with_src m0 s)) by (unfold read_lines; rewrite PK, S, SK; cbn [app map]; now rewrite G).
      exists (rev (drop_empty (rev (map line_of (y :: g) ++ map line_of z)))), (with_src (D :: L) s), (with_peeked [] (with_src (D :: L) s)). split; [|split; [|split]].
      * unfold read_until. rewrite R. rewrite (proj1 (none_hidden (y :: g) (Forall_cons _ HY HG))). cbn [map]. change (src (with_src m0 s)) with m0. now rewrite U.
      * rewrite drop_all; [unfold restore_lines; change (peeked (with_src (D :: L) s)) with (peeked s); now rewrite PK|]. apply Forall_rev, drop_empty_hidden, Forall_rev, Forall_app. split; apply lines_hidden; [now constructor|exact HZ].
      * now exists (D :: L), [].
      * unfold read_lines. cbn [with_peeked with_src peeked src skip_empty]. rewrite DE. now destruct (group L) as [g' m].
Qed.
Lemma read_ist x s : read_lines (set_ist_subs x s) = (fst (read_lines s), set_ist_subs x (snd (read_lines s))).
Proof. unfold read_lines. change (peeked (set_ist_subs x s)) with (peeked s). change (src (set_ist_subs x s)) with (src s). destruct (peeked s); [|reflexivity]. destruct (skip_empty (src s)); [reflexivity|]. now destruct (group _). Qed.
Lemma until_by_read d s s' : read_lines s = read_lines s' -> read_until d s = read_until d s'.
Proof. unfold read_until. now intros ->. Qed.
Lemma block_hidden P (rec : parser) D D' X L s : slashes D -> slashes D' -> Forall hidden X -> peeked s = [] -> pmeta s = None -> delim s <> Some cd -> src s = D :: X ++ D' :: L ->
  exists t vs, block P rec s = Yes (Some (BDelimited no_meta CComment t (Hidden vs) true)) (with_peeked (fst (group L)) (with_src (snd (group L)) s)).
Proof.
  intros SD SD' F PK PM DL S. set (R := X ++ D' :: L) in *. assert (RD : read_lines s = (line_of D :: fst (group R), with_src (snd (group R)) s)).
  { unfold read_lines. rewrite PK, S. destruct SD as (i & ->). cbn [skip_empty]. change (emptyish _) with false. cbn iota. now destruct (group R). }
  set (s2 := set_ist_subs (subs_for P CComment no_meta (subs_of (ist s))) (with_delim (Some cd) s)).
  assert (PK2 : peeked (with_peeked [] (with_src R s2)) = []) by reflexivity. destruct (read_hidden P D' L SD' X (with_peeked [] (with_src R s2)) F PK2 eq_refl) as (vs & s3 & s4 & RU & RL & (m4 & k4 & E4) & RD4).
  rewrite <- (until_by_read cd _ _ (read_group R s2)) in RU. destruct SD as (i & ->). set (t := TokI DelimiterLine $"////" i) in *. exists t, vs. unfold block. rewrite RD. set (l := line_of [t]). set (g := fst (group R)) in *. set (m := snd (group R)) in *.
  assert (TL : l = ILine [t] 1 false 0) by reflexivity. clearbody l. subst l. change (comment_block (ILine [t] 1 false 0 :: g)) with (Some (ILine [t] 1 false 0 :: g)). cbn iota.
  assert (CM : chunk_meta P (ILine [t] 1 false 0 :: g) (with_src m s) = Yes (no_meta, ILine [t] 1 false 0 :: g) (with_src m s)) by (unfold chunk_meta; change (pmeta (with_src m s)) with (pmeta s); rewrite PM; reflexivity).
  rewrite CM. cbn [bind fst snd]. change (section_start P (ILine [t] 1 false 0 :: g) no_meta) with (@None nat). cbn iota. unfold chunk. cbn [toks]. change (is_block_macro [t]) with false. change (starts_list (ILine [t] 1 false 0 :: g)) with false. change (is_some (unadjusted_level [t])) with false. cbn [andb]. change (is_k DelimiterLine t) with true. cbn iota.
  change (to_delimiter t) with (Some cd). change (delim (with_src m s)) with (delim s). cbn [is_delim]. replace (match delim s with Some d => delimiter_eqb d cd | None => false end) with false.
  2:{ destruct (delim s) as [[k n]|]; [|reflexivity]. symmetry. unfold delimiter_eqb. cbn [dk dlen cd]. destruct (dkind_beq k DComment) eqn:E; [|reflexivity]. destruct (Nat.eqb_spec n 4) as [->|N]; [|reflexivity]. destruct k; try discriminate E. now destruct DL. }
  unfold delimited. cbn [toks]. change (to_delimiter t) with (Some cd). cbn iota. change (fence cd []) with (Ret tt). cbn iota. unfold restore_lines at 1. change (peeked (with_delim (Some cd) (with_src m s))) with (peeked s). rewrite PK. cbn [bind]. change (context_of (dk cd)) with CComment. change (block_style CComment no_meta) with (@None context). cbn iota. change (verbatim_context CComment) with true. cbn iota.
  set (sB := set_ist_subs _ _). assert (EB : sB = with_peeked g (with_src m s2)) by reflexivity. rewrite EB. clearbody sB. rewrite RU. change (with_peeked g (with_delim (Some cd) (with_src m s))) with (with_peeked g (with_src m (with_delim (Some cd) s))). rewrite RL. cbn [bind]. rewrite read_ist, RD4. cbn [fst snd].
  change (delim (set_ist_subs _ _)) with (Some cd). assert (DD : is_delimiter cd (toks (line_of D')) = true) by (rewrite toks_line; destruct SD' as (i' & ->); reflexivity). cbn iota. rewrite DD. cbn iota. unfold restore_lines. cbn [peeked set_ist_subs with_ist with_peeked]. cbn [bind]. f_equal.
  unfold s2. destruct s as [s1 pk pm dl lv stk_ co im ne bi cm is_ pr em st_]. destruct is_. reflexivity.
Qed.
Lemma loop_by_read P n s s' : read_lines s = read_lines s' -> run n P _ BlockLoop s = run n P _ BlockLoop s'.
Proof.
  intros E. destruct n as [|[|n]]; [reflexivity..|]. change (run (S (S n)) P _ BlockLoop s) with (take (b, s) := block P (run n P) s in one_more (run (S n) P) BlockLoop b s).
  change (run (S (S n)) P _ BlockLoop s') with (take (b, s) := block P (run n P) s' in one_more (run (S n) P) BlockLoop b s). unfold block. now rewrite E.
Qed.
Lemma loop_hidden P n D D' X L s bs t : slashes D -> slashes D' -> Forall hidden X -> peeked s = [] -> pmeta s = None -> delim s <> Some cd -> src s = D :: X ++ D' :: L ->
  run n P _ BlockLoop (with_src L s) = Yes bs t -> exists u vs, run (S n) P _ BlockLoop s = Yes (BDelimited no_meta CComment u (Hidden vs) true :: bs) t.
Proof.
  intros SD SD' F PK PM DL SR R. destruct n as [|n]; [discriminate R|]. destruct (block_hidden P (run n P) D D' X L s SD SD' F PK PM DL SR) as (u & vs & B). exists u, vs.
  change (run (S (S n)) P _ BlockLoop s) with (take (b, s) := block P (run n P) s in one_more (run (S n) P) BlockLoop b s). rewrite B. cbn [bind one_more].
  rewrite (loop_by_read P (S n) _ _ (read_group L s)). replace (with_peeked [] (with_src L s)) with (with_src L s) by (destruct s; cbn in PK; now subst). now rewrite R.
Qed.
Lemma document_hidden P n sb D D' X L bs ss s : book P = false -> slashes D -> slashes D' -> Forall hidden X -> document n P (fresh sb L) = Yes (Sections bs ss) s ->
  exists u vs, document (S n) P (fresh sb (D :: X ++ D' :: L)) = Yes (Sections (BDelimited no_meta CComment u (Hidden vs) true :: bs) ss) s.
Proof.
  intros B SD SD' F E0. assert (E : forall m x, document m P x = match m with 0 => More | _ => take (x, s) := sectioned (run m P) x in Yes (Sections (fst x) (snd x)) s end).
  { intros [|m] x; [reflexivity|]. unfold document. change (run (S m) P _ Book x) with (parse_book P (run m P) x). unfold parse_book. now rewrite B. }
  rewrite E in E0. destruct n as [|n]; [discriminate E0|]. unfold sectioned in E0. destruct (run (S n) P _ BlockLoop (fresh sb L)) as [bs0 s0| |] eqn:R; [|discriminate E0..]. cbn [bind] in E0. destruct (run (S n) P _ SectionLoop s0) as [ss0 s1| |] eqn:R2; [|discriminate E0..]. cbn [bind fst snd] in E0. injection E0 as <- <- <-.
  destruct (loop_hidden P (S n) D D' X L (fresh sb (D :: X ++ D' :: L)) bs0 s0 SD SD' F eq_refl eq_refl ltac:(discriminate) eq_refl R) as (u & vs & K). exists u, vs. rewrite E. unfold sectioned. rewrite K. cbn [bind]. rewrite (run_enough P (S n) (S (S n)) _ _ _ _ _ R2 ltac:(lia)). reflexivity.
Qed.
