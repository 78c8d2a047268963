From Verif Require Import Base Text LexerModel LinesModel IndentModel IndentSpec.

Lemma indent_spec l : indented l (line_indent l) (skipn (line_indent l) l).
Proof.
  unfold indented. induction l as [|c l [E N]]; cbn [line_indent]; [split; [reflexivity|discriminate]|]. destruct (Ascii.eqb_spec c " ") as [->|X].
  - cbn [skipn spaces repeat app]. split; [f_equal; exact E|exact N].
  - split; [reflexivity|]. cbn [skipn]. intros r' Q. injection Q as -> _. congruence.
Qed.
Lemma indented_fun l k r : indented l k r -> k = line_indent l /\ r = skipn (line_indent l) l.
Proof.
  unfold indented. intros [-> N]. induction k as [|k [IH1 IH2]].
  - cbn [spaces repeat app]. assert (Z : line_indent r = 0). { destruct r as [|c r]; [reflexivity|]. cbn. destruct (Ascii.eqb_spec c " ") as [->|]; [destruct (N r eq_refl)|reflexivity]. }
    rewrite Z. auto.
  - cbn [spaces repeat app line_indent]. change (Ascii.eqb " " " ") with true. cbv iota. fold (spaces k). cbn [skipn]. split; [f_equal; exact IH1|exact IH2].
Qed.
Lemma min_some : forall ls a, exists m, min_indent (Some a) ls = Some m /\ m <= a /\ (m = a \/ exists l, In l ls /\ l <> marker /\ line_indent l = m) /\
  forall l, In l ls -> l <> marker -> m <= line_indent l.
Proof.
  induction ls as [|l ls IH]; intro a; [exists a; repeat split; auto; intros l []|]. cbn [min_indent]. destruct (bytes_eqb l marker) eqn:B.
  - apply bytes_eqb_eq in B. subst. destruct (IH a) as (m & E & L & C & H). exists m. split; [exact E|]. split; [exact L|]. split.
    + destruct C as [C|(x & I & N & Q)]; [left; exact C|right; exists x; split; [right; exact I|auto]].
    + intros x [<-|I] N; [congruence|exact (H x I N)].
  - assert (NM : l <> marker) by (intros ->; rewrite bytes_eqb_refl in B; discriminate).
    destruct (IH (Nat.min a (line_indent l))) as (m & E & L & C & H). exists m. split; [exact E|]. split; [lia|]. split.
    + destruct C as [C|(x & I & N & Q)]; [|right; exists x; split; [right; exact I|auto]].
      destruct (Nat.min_spec a (line_indent l)) as [[_ Q]|[_ Q]]; [left; congruence|right; exists l; split; [left; reflexivity|split; [exact NM|congruence]]].
    + intros x [<-|I] N; [lia|exact (H x I N)].
Qed.
Lemma min_none : forall ls, match min_indent None ls with
  | None => Forall (fun l => l = marker) ls
  | Some m => least ls m
  end.
Proof.
  induction ls as [|l ls IH]; cbn [min_indent]; [constructor|]. destruct (bytes_eqb l marker) eqn:B.
  - apply bytes_eqb_eq in B. subst. destruct (min_indent None ls) as [m|]; [|constructor; auto]. destruct IH as [(x & r & I & N & X) H]. split.
    + exists x, r. split; [right; exact I|auto].
    + intros y k r' [<-|I'] N' Y; [destruct (N' eq_refl)|exact (H y k r' I' N' Y)].
  - assert (NM : l <> marker) by (intros ->; rewrite bytes_eqb_refl in B; discriminate).
    destruct (min_some ls (line_indent l)) as (m & -> & L & C & H). split.
    + destruct C as [->|(x & I & N & <-)]; [exists l|exists x]; (eexists; split; [|split; [|apply indent_spec]]; auto); [left; reflexivity|right; exact I].
    + intros x k r [<-|I] N X; destruct (indented_fun _ _ _ X) as [-> _]; [exact L|exact (H x I N)].
Qed.
Lemma least_unique ls m m' : least ls m -> least ls m' -> m = m'.
Proof.
  intros [(l & r & I & N & X) H] [(l' & r' & I' & N' & X') H']. pose proof (H _ _ _ I' N' X'). pose proof (H' _ _ _ I N X). lia.
Qed.
Definition out_lines (m n : nat) (ls : list bytes) : list bytes :=
  flat_map (fun l => if m <=? line_indent l then [spaces (n + (line_indent l - m)) ++ skipn (line_indent l) l] else []) ls.
Lemma out_moved m n ls : (forall l, In l ls -> l = marker \/ m <= line_indent l) -> moved m n ls (out_lines m n ls).
Proof.
  induction ls as [|l ls IH]; intro H; [constructor|]. unfold out_lines. cbn [flat_map]. fold (out_lines m n ls).
  assert (R : moved m n ls (out_lines m n ls)) by (apply IH; intros x I; apply H; right; exact I).
  destruct (m <=? line_indent l) eqn:L.
  - apply Nat.leb_le in L. cbn [app]. apply M_line; [apply indent_spec|exact L|exact R].
  - apply Nat.leb_gt in L. destruct (H l (or_introl eq_refl)) as [->|X]; [|lia]. cbn [app]. apply M_drop; [lia|exact R].
Qed.
Lemma moved_fun m n ls o o' : moved m n ls o -> moved m n ls o' -> o = o'.
Proof.
  intro H. revert o'. induction H as [|l k r ls o X L H IH|ls o L H IH]; intros o' H'.
  - inversion H'. reflexivity.
  - inversion H' as [|l' k' r' ls' o'' X' L' H''|ls' o'' L' H'']; subst.
    + destruct (indented_fun _ _ _ X) as [-> ->], (indented_fun _ _ _ X') as [-> ->]. rewrite (IH _ H''). reflexivity.
    + exfalso. destruct (indented_fun _ _ _ X) as [-> _]. vm_compute in L. destruct m; lia.
  - inversion H' as [|l' k' r' ls' o'' X' L' H''|ls' o'' L' H'']; subst.
    + exfalso. destruct (indented_fun _ _ _ X') as [-> _]. vm_compute in L'. destruct m; lia.
    + exact (IH _ H'').
Qed.
Lemma reindent_lines m n ls : concat (map (reindent m n) ls) = concat (map (fun l => l ++ [LF]) (out_lines m n ls)).
Proof.
  induction ls as [|l ls IH]; [reflexivity|]. unfold out_lines. cbn [map concat flat_map]. fold (out_lines m n ls). rewrite map_app, concat_app, <- IH. f_equal.
  unfold reindent. destruct (m <=? line_indent l); [|reflexivity]. cbn [map concat]. rewrite app_nil_r, (Nat.add_comm n), <- app_assoc. reflexivity.
Qed.
Lemma join_out : forall o : list bytes, o <> [] -> removelast (concat (map (fun l => l ++ [LF]) o)) = join_byte LF o.
Proof.
  assert (E : forall o : list bytes, o <> [] -> concat (map (fun l => l ++ [LF]) o) = join_byte LF o ++ [LF]).
  { induction o as [|x o IH]; intro N; [congruence|]. destruct o as [|y o]; [cbn; rewrite app_nil_r; reflexivity|].
    change (concat (map (fun l => l ++ [LF]) (x :: y :: o))) with ((x ++ [LF]) ++ concat (map (fun l => l ++ [LF]) (y :: o))). rewrite IH by discriminate.
    change (join_byte LF (x :: y :: o)) with (x ++ LF :: join_byte LF (y :: o)). rewrite <- !app_assoc. reflexivity. }
  intros o N. rewrite E by exact N. apply removelast_last.
Qed.
Lemma join_snoc : forall ls : list bytes, ls <> [] -> join_byte LF ls ++ [LF] = join_byte LF (ls ++ [[]]).
Proof.
  induction ls as [|x ls IH]; intro N; [congruence|]. destruct ls as [|y ls]; [reflexivity|].
  change (join_byte LF (x :: y :: ls)) with (x ++ LF :: join_byte LF (y :: ls)). change (join_byte LF ((x :: y :: ls) ++ [[]])) with (x ++ LF :: join_byte LF ((y :: ls) ++ [[]])).
  rewrite <- IH by discriminate. rewrite <- app_assoc. reflexivity.
Qed.
Lemma last_join : forall ls : list bytes, ls <> [] -> last ls [] <> [] -> exists x, join_byte LF ls = x ++ last ls [].
Proof.
  induction ls as [|x ls IH]; intros N L; [congruence|]. destruct ls as [|y ls]; [exists []; reflexivity|].
  change (join_byte LF (x :: y :: ls)) with (x ++ LF :: join_byte LF (y :: ls)). change (last (x :: y :: ls) []) with (last (y :: ls) []) in *.
  destruct IH as (z & ->); [discriminate|exact L|]. exists (x ++ LF :: z). rewrite <- app_assoc. reflexivity.
Qed.
Lemma set_spec n ls terminated s : text_of ls terminated s ->
  (Forall (fun l => l = placeholder) ls -> set_indentation n s = s) /\
  (forall m, least ls m -> n = m -> set_indentation n s = s) /\
  (forall m, least ls m -> n <> m -> exists ls', moved m n ls ls' /\
     set_indentation n s = join_byte newline (ls' ++ (if terminated && (m =? 0) then [spaces n] else []))).
Proof.
  intros (NE & F & ES & T).
  assert (TR : let t : list ascii := if is (last (map Some s) None) LF then removelast s else s in split_byte LF t = ls).
  { cbv zeta. destruct terminated.
    - rewrite ES. rewrite map_app. cbn [map]. rewrite last_last. cbn [is]. rewrite Ascii.eqb_refl, removelast_last. apply split_join; auto.
    - rewrite app_nil_r in ES. replace (is (last (map Some s) None) LF) with false; [rewrite ES; apply split_join; auto|].
      symmetry. destruct (T eq_refl) as [L|Q]; [|rewrite ES, Q; reflexivity].
      destruct (last_join ls NE L) as (x & EX). change newline with LF in ES. rewrite ES, EX.
      assert (exists y c, last ls [] = y ++ [c]) as (y & c & EC) by (exists (removelast (last ls [])), (last (last ls []) LF); apply app_removelast_last, L).
      rewrite EC, app_assoc, map_app. cbn [map]. rewrite last_last. cbn [is]. apply Ascii.eqb_neq. intros ->.
      rewrite Forall_forall in F. apply (F (last ls [])); [|rewrite EC; apply in_or_app; right; left; reflexivity].
      clear - NE. induction ls as [|a [|d ls] IH]; [congruence|left; reflexivity|right; apply IH; discriminate]. }
  assert (SP : split_byte LF s = ls ++ (if terminated then [[]] else [])).
  { rewrite ES. change newline with LF. destruct terminated; [|rewrite !app_nil_r; apply split_join; auto].
    rewrite join_snoc by exact NE. apply split_join; [destruct ls; discriminate|]. apply Forall_app. split; [exact F|constructor; [intros []|constructor]]. }
  cbv zeta in TR. unfold set_indentation. cbv zeta. rewrite TR, SP. pose proof (min_none ls) as M. destruct (min_indent None ls) as [m0|].
  - split; [|split].
    + intro A. destruct M as [(l & r & I & N & _) _]. rewrite Forall_forall in A. destruct (N (A l I)).
    + intros m L ->. rewrite (least_unique _ _ _ M L). rewrite Nat.eqb_refl. reflexivity.
    + intros m L NM. rewrite (least_unique _ _ _ M L) in *. destruct (n =? m) eqn:Q; [apply Nat.eqb_eq in Q; congruence|].
      assert (W : forall l, In l ls -> l = marker \/ m <= line_indent l).
      { intros l I. destruct (bytes_eqb l marker) eqn:B; [left; apply bytes_eqb_eq, B|right]. destruct L as [_ L]. apply (L l _ (skipn (line_indent l) l) I); [|apply indent_spec].
        intros ->. change placeholder with marker in B. rewrite bytes_eqb_refl in B. discriminate. }
      exists (out_lines m n ls). split; [apply out_moved, W|]. rewrite reindent_lines.
      assert (OE : out_lines m n ls <> []).
      { destruct L as [(l & r & I & N & X) L]. destruct (indented_fun _ _ _ X) as [-> _]. intro Z.
        assert (IN : In (spaces (n + (line_indent l - line_indent l)) ++ skipn (line_indent l) l) (out_lines (line_indent l) n ls)); [|rewrite Z in IN; destruct IN].
        unfold out_lines. apply in_flat_map. exists l. split; [exact I|]. rewrite Nat.leb_refl. left. reflexivity. }
      assert (OA : out_lines m n (ls ++ (if terminated then [[]] else [])) = out_lines m n ls ++ (if terminated && (m =? 0) then [spaces n] else [])).
      { unfold out_lines. rewrite flat_map_app. f_equal. destruct terminated; [|reflexivity]. cbn. destruct m as [|m]; [|reflexivity]. cbn. rewrite Nat.add_0_r, app_nil_r. reflexivity. }
      rewrite OA. apply join_out. intro Z. apply app_eq_nil in Z as [Z _]. exact (OE Z).
  - split; [reflexivity|]. split; intros m [(l & r & I & N & _) _]; rewrite Forall_forall in M; destruct (N (M l I)).
Qed.
Lemma moved_least m n ls o : moved m n ls o -> least ls m -> exists l r, In l o /\ indented l n r.
Proof.
  intros H [(l & r & I & N & X) _]. induction H as [|l' k r' ls o X' L H IH|ls o L H IH]; [destruct I| |].
  - destruct I as [<-|I].
    + destruct (indented_fun _ _ _ X) as [E1 E2], (indented_fun _ _ _ X') as [E3 E4]. exists (spaces (n + (k - m)) ++ r'), r'. split; [left; reflexivity|].
      replace (n + (k - m)) with n by lia. split; [reflexivity|apply X'].
    + destruct (IH I) as (y & r2 & IY & Y). exists y, r2. split; [right; exact IY|exact Y].
  - destruct I as [<-|I]; [destruct (N eq_refl)|exact (IH I)].
Qed.
Lemma moved_all m n ls o : moved m n ls o -> Forall (fun l => exists k r, n <= k /\ indented l k r) o.
Proof.
  induction 1 as [|l' k r' ls o X' L H IH|ls o L H IH]; [constructor| |exact IH]. constructor; [|exact IH]. exists (n + (k - m)), r'. split; [lia|]. split; [reflexivity|apply X'].
Qed.
