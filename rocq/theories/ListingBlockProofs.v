(** The lines between the delimiters of a listing (C73). *)
From Verif Require Import Base Utf8 LexerModel LineModel SubsModel InlineModel InlineSpec BlockModel BlockSpec HeaderModel WholeModel WholeSpec WholeLexProofs WholePieceProofs WholeInlineProofs WholeBlockProofs.
From Verif Require Import OutlineModel OutlineLexProofs OutlineSpec BoxSpec OutlineBlockProofs OutlineListProofs BoxInlineProofs ListingInlineProofs.
Import ListNotations.
Open Scope list_scope.
Open Scope nat_scope.

Lemma skip_texts ls b R : skip_rows (map Text ls ++ Fence b :: R) = map Text (skip_blank_lines ls) ++ Fence b :: R.
Proof. induction ls as [|[|i l] ls IH]; [reflexivity|exact IH|reflexivity]. Qed.
Lemma skip_solid ls : Forall (fun l : line => l <> []) ls -> skip_blank_lines ls = ls.
Proof. intros F. destruct F as [|[|i l] ls N _]; [reflexivity|easy|reflexivity]. Qed.
Lemma text_text l p prev : line_ok l = true -> before_phrase prev -> of_text (InlineSpec.line_of (lay p prev (line_pieces l))) l.
Proof.
  intros OK B. destruct l as [|i l]; [split; [now split|now exists p, prev]|]. destruct (of_line_lay i l p prev OK B) as [(M & O & q & pr & T & _) _]. split; [exact M|]. now exists q, pr.
Qed.
Lemma text_no_delim d l p prev : line_ok l = true -> opens_with d (lay p prev (line_pieces l)) = false.
Proof.
  intros OK. destruct l as [|i l]; [reflexivity|]. apply line_ok_inv in OK as [OI _]. pose proof (line_ordinary (i :: l) p prev ltac:(discriminate) OI) as O. destruct (lay p prev (line_pieces (i :: l))) as [|t u]; [reflexivity|]. cbn [ordinary_start] in O. cbn [opens_with]. now rewrite (not_kind DelimiterLine t O eq_refl).
Qed.
Lemma until_rows b R : as_is b = true -> forall ls p prev, forallb line_ok ls = true -> before_phrase prev ->
  exists g p' prev', until_delim (box_delim b) (rows_at p prev (map Text ls ++ Fence b :: R)) = (g, rows_at p' prev' (Fence b :: R)) /\ before_phrase prev' /\ Forall2 of_text g ls.
Proof.
  intros A. induction ls as [|l ls IH]; intros p prev OK B.
  - exists [], p, prev. split; [|split; [exact B|constructor]]. cbn [map app]. destruct R as [|r R]; [|rewrite rows_at_cons]; destruct b; try discriminate A; reflexivity.
  - cbn [forallb] in OK. apply andb_true_iff in OK as [OL OK]. destruct (IH (p + length (row_source (Text l)) + 1) (Some LF) OK ltac:(right; right; reflexivity)) as (g & p' & prev' & U & B' & F).
    exists (InlineSpec.line_of (lay p prev (line_pieces l)) :: g), p', prev'. split; [|split; [exact B'|constructor; [now apply text_text|exact F]]].
    cbn [map app]. assert (X : exists m q, map Text ls ++ Fence b :: R = m :: q) by (destruct ls; cbn [map app]; eauto). destruct X as (m & q & X). rewrite X in *. rewrite rows_at_cons. cbn [until_delim row_pieces]. rewrite (text_no_delim _ l p prev OL), U. reflexivity.
Qed.
Lemma split_texts b R : forall L rr rs', map Text L ++ Fence b :: R = rr ++ rs' ->
  (exists rr2, rr = map Text L ++ Fence b :: rr2 /\ R = rr2 ++ rs') \/ exists L1 L2, L = L1 ++ L2 /\ rr = map Text L1 /\ rs' = map Text L2 ++ Fence b :: R.
Proof.
  induction L as [|l L IH]; intros rr rs' E; cbn [map app] in E.
  - destruct rr as [|r rr]; cbn [app] in E; [right; now exists [], []|]. injection E as <- ->. left. now exists rr.
  - destruct rr as [|r rr]; cbn [app] in E; [right; exists [], (l :: L); now rewrite <- E|]. injection E as <- E. destruct (IH rr rs' E) as [(rr2 & -> & ->)|(L1 & L2 & -> & -> & ->)]; [left; now exists rr2|right; now exists (l :: L1), L2].
Qed.
Lemma text_rows L g : Forall2 row_line g (map Text L) -> Forall2 of_text g L /\ Forall (fun l : line => l <> []) L /\ forall d, existsb (fun l => is_delimiter d (toks l)) g = false.
Proof.
  revert g. induction L as [|l L IH]; intros g F; inversion F as [|ln r g' rr RL F']; subst; [repeat split; constructor|]. destruct RL as ((M & O & p & prev & T & _) & _ & N & OI). destruct (IH g' F') as (F1 & F2 & F3). split; [constructor; [split; [exact M|now exists p, prev]|exact F1]|]. split; [now constructor|].
  intros d. cbn [existsb]. rewrite F3, orb_false_r. pose proof (line_ordinary l p prev N OI) as LO. rewrite <- T in LO. destruct (toks ln) as [|t [|u v]]; [reflexivity| |reflexivity]. cbn [ordinary_start] in LO. cbn [is_delimiter]. unfold to_delimiter. now rewrite (not_kind DelimiterLine t LO eq_refl).
Qed.
Lemma drop_texts g L : Forall2 of_text g L -> Forall (fun l => forallb item_ok l = true) L -> Forall2 of_text (drop_empty g) (skip_blank_lines L).
Proof.
  induction 1 as [|ln l g L (M & p & prev & T) F IH]; intros OK; [constructor|]. inversion OK as [|? ? OI OK']; subst. cbn [drop_empty]. rewrite T. destruct l as [|i l]; [now apply IH|].
  pose proof (line_ordinary (i :: l) p prev ltac:(discriminate) OI) as LO. cbn [skip_blank_lines]. rewrite <- T in *. destruct (toks ln) as [|t u] eqn:E; [discriminate LO|]. constructor; [split; [exact M|exists p, prev; congruence]|exact F].
Qed.
Lemma Forall2_reversed {A B} (Q : A -> B -> Prop) l m : Forall2 Q l m -> Forall2 Q (rev l) (rev m).
Proof. induction 1 as [|x y l m H _ IH]; [constructor|]. cbn [rev]. apply Forall2_app; [exact IH|]. now repeat constructor. Qed.
Lemma skip_forall Q (ls : list line) : Forall Q ls -> Forall Q (skip_blank_lines ls).
Proof. induction 1 as [|[|i l] ls H F IH]; [constructor|exact IH|now constructor]. Qed.
Lemma line_items ls : forallb line_ok ls = true -> Forall (fun l => forallb item_ok l = true) ls.
Proof. intros H. rewrite forallb_forall in H. apply Forall_forall. intros l I. specialize (H l I). destruct l as [|i l]; [reflexivity|]. now apply line_ok_inv in H. Qed.
Lemma trimmed_items ls : forallb line_ok ls = true -> Forall (fun l => forallb item_ok l = true) (trimmed ls).
Proof. intros H. apply line_items in H. unfold trimmed. apply Forall_rev, skip_forall, Forall_rev, skip_forall, H. Qed.
Lemma skip_first ls : match skip_blank_lines ls with [] :: _ => False | _ => True end.
Proof. induction ls as [|[|i l] ls IH]; [exact I|exact IH|exact I]. Qed.
Lemma skip_suffix ls : exists a, ls = a ++ skip_blank_lines ls.
Proof. induction ls as [|[|i l] ls [a E]]; [now exists []|exists ([] :: a); cbn [app skip_blank_lines]; now rewrite <- E|now exists []]. Qed.
Lemma trimmed_first ls : match trimmed ls with [] :: _ => False | _ => True end.
Proof.
  unfold trimmed. pose proof (skip_first ls) as F. destruct (skip_suffix (rev (skip_blank_lines ls))) as (a & E). apply (f_equal (@rev _)) in E. rewrite rev_involutive, rev_app_distr in E. rewrite E in F. now destruct (rev (skip_blank_lines (rev (skip_blank_lines ls)))) as [|[|]].
Qed.

Lemma read_shown lv b ls R s : as_is b = true -> forallb line_ok ls = true -> holds (Some (box_delim b), lv) [] s (map Text ls ++ Fence b :: R) ->
  exists vs rest l, read_until (box_delim b) s = (vs ++ rest, hereat (Some (box_delim b), lv) [] l []) /\ Forall2 of_text vs (trimmed ls) /\ holds (Some (box_delim b), lv) [] (hereat (Some (box_delim b), lv) [] l rest) (Fence b :: R) /\
    match rest with [] => True | x :: _ => of_fence x b end.
Proof.
  intros A OK H. pose proof (line_items ls OK) as IT. apply read_holds in H as [[S _]|(g & rr & rs' & l & RD & F & NE & U & B & E)]; [rewrite skip_texts in S; now destruct (skip_blank_lines ls)|]. rewrite skip_texts in E. unfold read_until. rewrite RD.
  destruct (split_texts _ _ _ _ _ E) as [(rr2 & -> & ->)|(L1 & L2 & EL & -> & ->)].
  - apply Forall2_app_inv_r in F as (g1 & g2 & F1 & F2 & ->). inversion F2 as [|fl r g2' rr2' RL F2']; subst. destruct (text_rows _ _ F1) as (T1 & N1 & D1). exists g1, (fl :: g2'), l. destruct RL as [OF BO]. split; [|split; [|split; [|exact OF]]].
    + replace (existsb _ (g1 ++ fl :: g2')) with true; [now destruct g1|]. symmetry. rewrite existsb_app. cbn [existsb]. destruct OF as (p & prev & ->). cbn [toks is_delimiter]. rewrite (fence_delim b _ BO). cbn [is_delim fst]. rewrite box_delim_eqb, (proj2 (bytes_eqb_eq _ _) eq_refl). now rewrite orb_true_r.
    + unfold trimmed. rewrite (skip_solid (rev _)) by now apply Forall_rev. now rewrite rev_involutive.
    + apply (holds_put _ _ l (fl :: g2') (Fence b :: rr2) rs'); auto.
  - destruct (text_rows _ _ F) as (T1 & N1 & D1). rewrite D1. destruct U as (p & prev & -> & BP & RO).
    assert (OK2 : forallb line_ok L2 = true). { rewrite forallb_app in RO. apply andb_true_iff in RO as [RO _]. clear -RO. induction L2 as [|x L2 IH]; [reflexivity|]. cbn [map forallb row_ok] in *. apply andb_true_iff in RO as [-> RO]. now apply IH. }
    destruct (until_rows b R A L2 p prev OK2 BP) as (g' & p' & prev' & UD & BP' & T2). cbn [src OutlineBlockProofs.hereat]. rewrite UD. destruct g as [|ln g]; [inversion F; destruct L1; [easy|discriminate]|].
    exists (rev (drop_empty (rev ((ln :: g) ++ g')))), [], (rows_at p' prev' (Fence b :: R)). split; [now rewrite app_nil_r|]. split; [|split; [|exact I]].
    + unfold trimmed. apply Forall2_reversed, drop_texts; [apply Forall2_reversed; rewrite EL; now apply Forall2_app|]. apply Forall_rev, skip_forall, IT.
    + exists (rows_at p' prev' (Fence b :: R)), [], [], (Fence b :: R). split; [reflexivity|]. split; [constructor|]. split; [|split; [easy|reflexivity]]. exists p', prev'. split; [reflexivity|]. split; [exact BP'|]. rewrite forallb_app in RO. now apply andb_true_iff in RO.
Qed.

Section Parse.
Variables (P : params) (lv : nat).
(** the state in which the lines of a listing are read *)
Definition showing (b : box) (l : list (list tok)) : pst := with_nests false (set_ist_subs verbatim (hereat (Some (box_delim b), lv) [] l [])).
Lemma showing_free b l : forall ln, ordinary_start (toks ln) = true -> stops (env_of P (showing b l)) ln = false.
Proof.
  intros ln O. pose proof (stops_free P (Some (box_delim b), lv) [] l [] ln O) as H. cbn [env_of stops] in *. unfold stops_at in *. cbn [showing with_nests set_ist_subs with_ist OutlineBlockProofs.hereat BlockModel.nests delim conts stack_of map] in *. rewrite andb_false_r. cbn [orb].
  apply orb_false_iff in H as [H H4]. apply orb_false_iff in H as [H H3]. apply orb_false_iff in H as [H H2]. apply orb_false_iff in H as [_ H1]. apply orb_false_iff. split; [|exact H4]. apply orb_false_iff. split; [|exact H3]. apply orb_false_iff. now split.
Qed.
Lemma showing_blank b l : forall ln, toks ln = [] -> stops (env_of P (showing b l)) ln = false.
Proof. intros ln O. cbn [env_of stops]. unfold stops_at, in_desc_list. cbn [showing with_nests set_ist_subs with_ist OutlineBlockProofs.hereat BlockModel.nests delim conts is_some negb andb]. rewrite O, !andb_false_r. reflexivity. Qed.
Lemma shown_inlines b l vs rest ls : box_ok b = true -> Forall2 of_text vs (trimmed ls) -> forallb line_ok ls = true -> match rest with [] => True | x :: _ => of_fence x b end ->
  exists ns, forallb vgood ns = true /\ vnodes_html ns = join newline (map text_of_line (trimmed ls)) /\ inlines P (vs ++ rest) (showing b l) = Yes (ns, rest) (showing b l).
Proof.
  intros BO F OK HR. destruct (parse_listing (env_of P (showing b l)) (showing_free b l) (showing_blank b l) (start verbatim) vs (trimmed ls) rest eq_refl) as (ns & G & V & PI); [|exact F|now apply trimmed_items|apply trimmed_first|].
  - destruct rest as [|x r]; [exact I|]. destruct HR as (p & prev & ->). split; [|now split]. cbn [env_of stops]. unfold stops_at. cbn [showing with_nests set_ist_subs with_ist OutlineBlockProofs.hereat delim toks]. rewrite (fence_delim b _ BO). cbn [is_delim fst]. rewrite box_delim_eqb, (proj2 (bytes_eqb_eq _ _) eq_refl). now rewrite orb_true_r.
  - exists ns. split; [exact G|]. split; [exact V|]. unfold inlines. change (ist (showing b l)) with (start verbatim). rewrite PI. reflexivity.
Qed.
End Parse.
