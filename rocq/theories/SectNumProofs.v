From Coq Require Import FinFun DecimalString.
From Verif Require Import Base SectNumModel SectNumSpec.
Open Scope nat_scope.

Lemma blk_ind' (P : blk -> Prop) : (forall l sp bs, Forall P bs -> P (Section l sp bs)) -> (forall c, P (Settings c)) -> (forall ns, P (Toc ns)) -> P PartTitle -> forall b, P b.
Proof.
  intros HS HC HT HP. fix IH 1. intros [l sp bs|c|ns|]; [|apply HC|apply HT|exact HP]. apply HS. induction bs as [|b bs IHb]; constructor; [apply IH|exact IHb].
Qed.
Lemma tnode_ind' (P : tnode -> Prop) : (forall l sp cs, Forall P cs -> P (TNode l sp cs)) -> forall n, P n.
Proof. intros H. fix IH 1. intros [l sp cs]. apply H. induction cs as [|b bs IHb]; constructor; [apply IH|exact IHb]. Qed.
Lemma block_section l sp bs cs : block (Section l sp bs) cs =
  bind (heading (fst cs) l sp (enter_appendix sp (snd cs)))
    (fun x => bind (blocks bs (fst cs, fst x)) (fun y => Ret ((fst (fst y), exit_appendix sp (snd (fst y))), snd x :: snd y))).
Proof. reflexivity. Qed.
Lemma toc_node_eq c l sp cs s : toc_node c (TNode l sp cs) s =
  bind (if is_appendix sp then Ret (push_appendix_caption (enter_appendix sp s)) else if l =? 0 then Ret (push_part_prefix c (enter_appendix sp s)) else push_section_heading_prefix c l sp (enter_appendix sp s))
    (fun x => bind (toc_nodes c cs (fst x)) (fun y => Ret (exit_appendix sp (fst y), snd x :: snd y))).
Proof. reflexivity. Qed.

(** ** one heading *)
Definition agrees (s : state) (before : list nat) : Prop := nums s = path 5 before /\ in_appendix s = false.
Lemma number_text_written p : number_text false p = written p.
Proof. induction p as [|n p IH]; [reflexivity|]. cbn [number_text written fold_right]. rewrite IH. reflexivity. Qed.
Lemma prefix_agrees l before s : 1 <= l <= 5 -> agrees s before -> exists s', push_section_number_prefix l s = Ret (s', written (path l (l :: before))) /\ agrees s' (l :: before).
Proof.
  intros L [N A]. unfold agrees.
  assert (C : l = 1 \/ l = 2 \/ l = 3 \/ l = 4 \/ l = 5) by lia.
  destruct C as [->|[->|[->|[->| ->]]]]; unfold push_section_number_prefix; cbn [Nat.leb]; eexists; (split; [rewrite N, A, number_text_written; reflexivity|]); cbn [nums in_appendix]; split; (reflexivity || exact A).
Qed.
Fixpoint conf_after (c : config) (bs : list blk) : config := match bs with [] => c | Settings c' :: r => conf_after c' r | _ :: r => conf_after c r end.
Lemma marks_app x : forall c y, marks c (x ++ y) = (marks c x ++ marks (conf_after c x) y)%list.
Proof. induction x as [|b x IH]; intros c y; [reflexivity|]. destruct b; cbn [app marks conf_after]; rewrite IH; reflexivity. Qed.
Lemma conf_app x : forall c y, conf_after c (x ++ y) = conf_after (conf_after c x) y.
Proof. induction x as [|b x IH]; intros c y; [reflexivity|]. destruct b; cbn [app conf_after]; rewrite IH; reflexivity. Qed.
Lemma prefixes_app x : forall before y, prefixes before (x ++ y) = (prefixes before x ++ prefixes (rev (numbered_levels x) ++ before) y)%list.
Proof.
  unfold numbered_levels. induction x as [|[l [|]] x IH]; intros before y; [reflexivity| |]; cbn [app prefixes filter snd map rev fst]; rewrite IH; [|reflexivity].
  cbn [app]. rewrite <- app_assoc. reflexivity.
Qed.
Lemma numbered_app x y : numbered_levels (x ++ y) = (numbered_levels x ++ numbered_levels y)%list.
Proof. unfold numbered_levels. rewrite filter_app, map_app. reflexivity. Qed.
Definition block_ok (b : blk) : Prop := forall c s before, ordinary b = true -> numberable (marks c (flat b)) -> agrees s before ->
  exists s', block b (c, s) = Ret ((conf_after c (flat b), s'), prefixes before (marks c (flat b))) /\ agrees s' (rev (numbered_levels (marks c (flat b))) ++ before)%list.
Lemma blocks_of bs : Forall block_ok bs -> forall c s before, forallb ordinary bs = true -> numberable (marks c (flat_map flat bs)) -> agrees s before ->
  exists s', blocks bs (c, s) = Ret ((conf_after c (flat_map flat bs), s'), prefixes before (marks c (flat_map flat bs))) /\ agrees s' (rev (numbered_levels (marks c (flat_map flat bs))) ++ before)%list.
Proof.
  induction 1 as [|b bs B F IH]; intros c s before O N A; [exists s; split; [reflexivity|exact A]|].
  cbn [forallb] in O. apply andb_true_iff in O as [O1 O2]. cbn [flat_map] in *. rewrite marks_app in *. apply Forall_app in N as [N1 N2].
  destruct (B c s before O1 N1 A) as (s1 & E1 & A1). destruct (IH _ _ _ O2 N2 A1) as (s2 & E2 & A2). exists s2. cbn [blocks]. rewrite E1. cbn [bind fst snd]. rewrite E2. cbn [bind fst snd].
  rewrite conf_app, prefixes_app, numbered_app, rev_app_distr, <- app_assoc. split; [reflexivity|exact A2].
Qed.
Lemma block_all b : block_ok b.
Proof.
  induction b as [l sp bs F|c0|ns|] using blk_ind'; intros c s before O N A; try discriminate; [|exists s; split; [reflexivity|exact A]].
  cbn [ordinary] in O. apply andb_true_iff in O as [O1 O2]. apply negb_true_iff in O1. rewrite block_section. cbn [fst snd]. unfold enter_appendix, exit_appendix, heading, push_section_heading_prefix. rewrite O1.
  cbn [flat marks conf_after] in *. inversion N as [|? ? N1 N2]; subst. cbn [fst snd] in N1.
  destruct (should_number_section c l sp) eqn:S0.
  - destruct (prefix_agrees l before s (N1 eq_refl) A) as (s1 & -> & A1). cbn [bind fst snd]. destruct (blocks_of bs F c s1 (l :: before) O2 N2 A1) as (s2 & -> & A2). cbn [bind fst snd prefixes].
    exists s2. split; [reflexivity|]. unfold numbered_levels in *. cbn [filter snd map fst rev]. rewrite <- app_assoc. exact A2.
  - cbn [bind fst snd]. destruct (blocks_of bs F c s before O2 N2 A) as (s2 & -> & A2). cbn [bind fst snd prefixes]. exists s2. split; [reflexivity|exact A2].
Qed.
Theorem document_numbers c bs : forallb ordinary bs = true -> numberable (marks c (flat_map flat bs)) -> document c bs = Ret (prefixes [] (marks c (flat_map flat bs))).
Proof.
  intros O N. unfold document. destruct (blocks_of bs (proj2 (Forall_forall _ _) (fun b _ => block_all b)) c fresh_state [] O N) as (s & -> & _); [split; reflexivity|]. reflexivity.
Qed.

(** ** distinct numbers *)
Lemma count_app m a h : Forall (fun l => m <= l) a -> count m (a ++ h) = length (filter (Nat.eqb m) a) + count m h.
Proof.
  induction 1 as [|l a L F IH]; [reflexivity|]. cbn [app count filter]. replace (l <? m) with false by (symmetry; apply Nat.ltb_ge; exact L). rewrite (Nat.eqb_sym m l). destruct (l =? m); cbn [length]; rewrite IH; reflexivity.
Qed.
Lemma has_min (a : list nat) : a <> [] -> exists m, In m a /\ Forall (fun l => m <= l) a.
Proof.
  induction a as [|x a IH]; [congruence|]. intros _. destruct a as [|y a].
  - exists x. split; [left; reflexivity|]. constructor; [lia|constructor].
  - destruct IH as (m & I & F); [discriminate|]. destruct (Nat.le_gt_cases x m).
    + exists x. split; [left; reflexivity|]. constructor; [lia|]. eapply Forall_impl; [|exact F]. cbn. intros. lia.
    + exists m. split; [right; exact I|]. constructor; [lia|exact F].
Qed.
Lemma path_length l h : length (path l h) = l.
Proof. unfold path. rewrite map_length, seq_length. reflexivity. Qed.
Lemma path_differs l a l0 h : Forall (fun k => 1 <= k) (l :: a) -> path l ((l :: a) ++ h) <> path l0 h.
Proof.
  intros F E. assert (l0 = l) by (rewrite <- (path_length l0 h), <- E, path_length; reflexivity). subst l0.
  destruct (has_min (l :: a)) as (m & I & M); [discriminate|]. assert (M1 : 1 <= m) by (exact (proj1 (Forall_forall _ _) F m I)). assert (ML : m <= l) by (inversion M; assumption).
  assert (C : count m ((l :: a) ++ h) = count m h).
  { unfold path in E. assert (G : forall xs, map (fun k => count k ((l :: a) ++ h)) xs = map (fun k => count k h) xs -> In m xs -> count m ((l :: a) ++ h) = count m h).
    { clear. induction xs as [|x xs IH]; [intros _ []|]. intros [= E1 E2] [->|J]; [exact E1|exact (IH E2 J)]. }
    apply (G _ E). apply in_seq. lia. }
  rewrite count_app in C by exact M. assert (In m (filter (Nat.eqb m) (l :: a))) by (apply filter_In; split; [exact I|apply Nat.eqb_refl]).
  destruct (filter (Nat.eqb m) (l :: a)); [contradiction|]. cbn in C. lia.
Qed.
Lemma paths_in p ls : forall h, In p (paths h ls) -> exists l a, incl (l :: a) ls /\ p = path l ((l :: a) ++ h).
Proof.
  induction ls as [|l ls IH]; intros h I; [destruct I|]. destruct I as [<-|I].
  - exists l, []. split; [intros x [<-|[]]; left; reflexivity|reflexivity].
  - destruct (IH _ I) as (l' & a & J & ->). exists l', (a ++ [l])%list. split.
    + intros x [<-|K]; [right; apply J; left; reflexivity|]. apply in_app_or in K as [K|[<-|[]]]; [right; apply J; right; exact K|left; reflexivity].
    + f_equal. cbn [app]. rewrite <- app_assoc. reflexivity.
Qed.
Theorem paths_distinct ls : forall h, Forall (fun k => 1 <= k) ls -> NoDup (paths h ls).
Proof.
  induction ls as [|l ls IH]; intros h F; [constructor|]. inversion F as [|? ? L F']; subst. cbn [paths]. constructor; [|exact (IH _ F')].
  intro I. destruct (paths_in _ _ _ I) as (l' & a & J & E). symmetry in E. revert E. apply path_differs.
  apply Forall_forall. intros k K. exact (proj1 (Forall_forall _ _) F' k (J k K)).
Qed.

(** ** as text *)
Fixpoint digits (s : string) : Prop := match s with EmptyString => True | String c r => (48 <= nat_of_ascii c <= 57) /\ digits r end.
Lemma uint_digits u : digits (NilEmpty.string_of_uint u).
Proof. induction u; cbn; (exact I || (split; [lia|exact IHu])). Qed.
Lemma dec_digits n : digits (dec n) /\ dec n <> EmptyString.
Proof.
  assert (G : forall u, digits (NilZero.string_of_uint u) /\ NilZero.string_of_uint u <> EmptyString).
  { intros [| | | | | | | | | |]; (split; [|discriminate]); unfold NilZero.string_of_uint; try apply uint_digits. cbn. split; [lia|exact I]. }
  exact (G (Nat.to_uint n)).
Qed.
Lemma dot_split a : forall b s t, digits a -> digits b -> (a ++ "." ++ s = b ++ "." ++ t)%string -> a = b /\ s = t.
Proof.
  induction a as [|c a IH]; intros [|d b] s t DA DB E.
  - injection E as ->. auto.
  - injection E as E _. cbn in DB. subst d. cbn in DB. lia.
  - injection E as E _. cbn in DA. subst c. cbn in DA. lia.
  - injection E as -> E. destruct DA as [_ DA], DB as [_ DB]. destruct (IH b s t DA DB E) as [-> ->]. auto.
Qed.
Lemma written_inj p : forall q, written p = written q -> p = q.
Proof.
  induction p as [|n p IH]; intros [|m q] E; [reflexivity| | |].
  - cbn [written fold_right] in E. destruct (dec_digits m) as [D N]. destruct (dec m) as [|c r]; [congruence|]. injection E as E _. cbn in D. subst c. cbn in D. lia.
  - cbn [written fold_right] in E. destruct (dec_digits n) as [D N]. destruct (dec n) as [|c r]; [congruence|]. injection E as E _. cbn in D. subst c. cbn in D. lia.
  - cbn [written fold_right] in E. destruct (dot_split _ _ _ _ (proj1 (dec_digits n)) (proj1 (dec_digits m)) E) as [E1 E2]. apply dec_inj in E1 as ->. f_equal. exact (IH q E2).
Qed.
Lemma written_nonempty p : written p <> EmptyString.
Proof. destruct p as [|n p]; [discriminate|]. cbn. destruct (dec_digits n) as [_ N]. destruct (dec n); [congruence|discriminate]. Qed.
Lemma prefixes_written ms : forall h, filter (fun s => negb (String.eqb s "")) (prefixes h ms) = map written (paths h (numbered_levels ms)).
Proof.
  unfold numbered_levels. induction ms as [|[l [|]] ms IH]; intro h; [reflexivity| |]; cbn [prefixes filter snd map fst paths].
  - pose proof (written_nonempty (path l (l :: h))) as N. destruct (String.eqb_spec (written (path l (l :: h))) ""); [congruence|]. cbn [negb map]. rewrite IH. reflexivity.
  - cbn. apply IH.
Qed.
Theorem texts_distinct ms h : Forall (fun m => snd m = true -> 1 <= fst m) ms -> NoDup (filter (fun s => negb (String.eqb s "")) (prefixes h ms)).
Proof.
  intro F. rewrite prefixes_written. apply Injective_map_NoDup; [intros p q; apply written_inj|]. apply paths_distinct. unfold numbered_levels.
  induction F as [|[l [|]] ms L F IH]; cbn [filter snd map fst]; [constructor| |exact IH]. constructor; [exact (L eq_refl)|exact IH].
Qed.

(** ** the table of contents *)
Definition node_ok (c : config) (n : tnode) : Prop := forall s before, ordinary_node n = true -> numberable (toc_marks c [n]) -> agrees s before ->
  exists s', toc_node c n s = Ret (s', prefixes before (toc_marks c [n])) /\ agrees s' (rev (numbered_levels (toc_marks c [n])) ++ before)%list.
Lemma toc_marks_cons c n ns : toc_marks c (n :: ns) = (toc_marks c [n] ++ toc_marks c ns)%list.
Proof. unfold toc_marks. cbn [flat_map]. rewrite app_nil_r, map_app. reflexivity. Qed.
Lemma nodes_of c ns : Forall (node_ok c) ns -> forall s before, forallb ordinary_node ns = true -> numberable (toc_marks c ns) -> agrees s before ->
  exists s', toc_nodes c ns s = Ret (s', prefixes before (toc_marks c ns)) /\ agrees s' (rev (numbered_levels (toc_marks c ns)) ++ before)%list.
Proof.
  induction 1 as [|n ns B F IH]; intros s before O N A; [exists s; split; [reflexivity|exact A]|].
  cbn [forallb] in O. apply andb_true_iff in O as [O1 O2]. rewrite toc_marks_cons in *. apply Forall_app in N as [N1 N2].
  destruct (B s before O1 N1 A) as (s1 & E1 & A1). destruct (IH _ _ O2 N2 A1) as (s2 & E2 & A2). exists s2. change (toc_nodes c (n :: ns) s) with (bind (toc_node c n s) (fun x => bind (toc_nodes c ns (fst x)) (fun y => Ret (fst y, (snd x ++ snd y)%list)))).
  rewrite E1. cbn [bind fst snd]. rewrite E2. cbn [bind fst snd]. rewrite prefixes_app, numbered_app, rev_app_distr, <- app_assoc. split; [reflexivity|exact A2].
Qed.
Lemma node_all c n : node_ok c n.
Proof.
  induction n as [l sp cs F] using tnode_ind'. intros s before O N A. cbn [ordinary_node] in O. apply andb_true_iff in O as [O O3]. apply andb_true_iff in O as [O1 O2]. apply negb_true_iff in O1. apply Nat.leb_le in O2.
  rewrite toc_node_eq. unfold enter_appendix, exit_appendix, push_section_heading_prefix. rewrite O1. replace (l =? 0) with false by (symmetry; apply Nat.eqb_neq; lia).
  assert (M : toc_marks c [TNode l sp cs] = (l, should_number_section c l sp) :: toc_marks c cs) by (unfold toc_marks; cbn [flat_map toc_levels map fst snd]; rewrite app_nil_r; reflexivity).
  rewrite M in *. inversion N as [|? ? N1 N2]; subst. cbn [fst snd] in N1. destruct (should_number_section c l sp) eqn:S0.
  - destruct (prefix_agrees l before s (N1 eq_refl) A) as (s1 & -> & A1). cbn [bind fst snd]. destruct (nodes_of c cs F s1 (l :: before) O3 N2 A1) as (s2 & -> & A2). cbn [bind fst snd prefixes].
    exists s2. split; [reflexivity|]. unfold numbered_levels in *. cbn [filter snd map fst rev]. rewrite <- app_assoc. exact A2.
  - cbn [bind fst snd]. destruct (nodes_of c cs F s before O3 N2 A) as (s2 & -> & A2). cbn [bind fst snd prefixes]. exists s2. split; [reflexivity|exact A2].
Qed.
Theorem toc_numbers c ns : forallb ordinary_node ns = true -> numberable (toc_marks c ns) -> exists s, toc_nodes c ns fresh_state = Ret (s, prefixes [] (toc_marks c ns)).
Proof.
  intros O N. destruct (nodes_of c ns (proj2 (Forall_forall _ _) (fun n _ => node_all c n)) fresh_state [] O N) as (s & E & _); [split; reflexivity|]. eauto.
Qed.
(** leaving out deeper headings does not change the numbers of the others *)
Lemma count_filter t k h : k <= t -> count k (filter (fun l => l <=? t) h) = count k h.
Proof.
  intro K. induction h as [|l h IH]; [reflexivity|]. cbn [filter]. destruct (Nat.leb_spec l t) as [L|L]; cbn [count]; rewrite IH; [reflexivity|].
  replace (l <? k) with false by (symmetry; apply Nat.ltb_ge; lia). replace (l =? k) with false by (symmetry; apply Nat.eqb_neq; lia). reflexivity.
Qed.
Lemma path_filter t l h : l <= t -> path l (filter (fun l => l <=? t) h) = path l h.
Proof. intro L. unfold path. apply map_ext_in. intros k I. apply in_seq in I. apply count_filter. lia. Qed.
Theorem prefixes_filter t ms : forall h, prefixes (filter (fun l => l <=? t) h) (filter (fun m => fst m <=? t) ms) =
  map snd (filter (fun x => fst x <=? t) (combine (map fst ms) (prefixes h ms))).
Proof.
  induction ms as [|[l [|]] ms IH]; intro h; [reflexivity| |]; cbn [filter fst map prefixes combine].
  - specialize (IH (l :: h)). cbn [filter] in IH. destruct (Nat.leb_spec l t) as [L|L]; cbn [prefixes map snd]; rewrite <- IH; [|reflexivity]. f_equal.
    f_equal. rewrite <- (path_filter t l (l :: h) L). cbn [filter]. replace (l <=? t) with true by (symmetry; apply Nat.leb_le; exact L). reflexivity.
  - destruct (l <=? t); cbn [prefixes map snd]; rewrite <- IH; reflexivity.
Qed.
