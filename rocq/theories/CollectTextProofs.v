(** Lemmas for CollectTextProps. *)
From Coq Require Import Lia.
From Verif Require Import Base Text Unicode CollectTextModel CollectTextSpec.

(** ** Bytes and characters *)
Lemma blen_app t u : blen (t ++ u) = blen t + blen u.
Proof. unfold blen, utf8_text. rewrite flat_map_app, app_length. reflexivity. Qed.
Lemma utf8_app t u : utf8_text (t ++ u) = utf8_text t ++ utf8_text u.
Proof. apply flat_map_app. Qed.
Lemma enc_len c : 1 <= length (utf8_enc c).
Proof. unfold utf8_enc. repeat (destruct (_ <? _)%N); cbn; lia. Qed.
Lemma enc_one c : one_byte c -> utf8_enc c = [byte c].
Proof. intro H. unfold utf8_enc. apply N.ltb_lt in H. rewrite H. reflexivity. Qed.
Lemma blen_length t : length t <= blen t.
Proof. induction t as [|c t IH]; [cbn; lia|]. unfold blen in *. cbn [utf8_text flat_map length]. rewrite app_length. pose proof (enc_len c). fold (utf8_text t). lia. Qed.
Lemma blen_one t : Forall one_byte t -> blen t = length t.
Proof. induction 1 as [|c t H _ IH]; [reflexivity|]. unfold blen in *. cbn [utf8_text flat_map length]. rewrite (enc_one c H). cbn. fold (utf8_text t). lia. Qed.
Lemma byte_inj m n : (m < 256)%N -> (n < 256)%N -> byte m = byte n -> m = n.
Proof. intros M N E. apply (f_equal N_of_ascii) in E. unfold byte in E. rewrite !N_ascii_embedding in E by assumption. exact E. Qed.
(** the last byte of a character is one below 128 only if the character is one *)
Lemma enc_last c : exists f n, utf8_enc c = f ++ [byte n] /\ (n < 256)%N /\ ((n < 128)%N -> n = c /\ f = []).
Proof.
  unfold utf8_enc.
  destruct (c <? 128)%N eqn:A; [apply N.ltb_lt in A; exists [], c; repeat split; lia|].
  pose proof (N.mod_upper_bound c 64 ltac:(lia)).
  destruct (c <? 2048)%N; [|destruct (c <? 65536)%N].
  - exists [byte (192 + c / 64)], (128 + c mod 64)%N. repeat split; lia.
  - exists [byte (224 + c / 4096); byte (128 + c / 64 mod 64)], (128 + c mod 64)%N. repeat split; lia.
  - exists [byte (240 + c / 262144); byte (128 + c / 4096 mod 64); byte (128 + c / 64 mod 64)], (128 + c mod 64)%N. repeat split; lia.
Qed.
Lemma utf8_snoc t c : utf8_text (t ++ [c]) = utf8_text t ++ utf8_enc c.
Proof. rewrite utf8_app. cbn. rewrite app_nil_r. reflexivity. Qed.
(** a text whose bytes end with those of one byte characters ends with the characters *)
Lemma ends_bytes s : Forall one_byte s -> forall t f, utf8_text t = f ++ utf8_text s -> exists g, t = g ++ s.
Proof.
  induction s as [|c s IH] using rev_ind; intros F t f E.
  - exists t. rewrite app_nil_r. reflexivity.
  - apply Forall_app in F. destruct F as [F C]. inversion C as [|? ? C1 _]; subst.
    rewrite utf8_snoc, (enc_one c C1), app_assoc in E.
    destruct t as [|x t _] using rev_ind; [destruct (f ++ utf8_text s); discriminate E|].
    rewrite utf8_snoc in E. destruct (enc_last x) as (g & n & En & N1 & N2). rewrite En, app_assoc in E.
    apply app_inj_tail in E. destruct E as [E B]. unfold one_byte in C1. apply byte_inj in B; [|lia..]. subst n. destruct (N2 C1) as [-> ->].
    rewrite app_nil_r in E. destruct (IH F t f E) as [h ->]. exists h. rewrite app_assoc. reflexivity.
Qed.
Lemma ends_with_spec t s : Forall one_byte s -> ends_with t s = true -> exists g, t = g ++ s.
Proof.
  intros F E. unfold ends_with in E. apply starts_with_spec in E. destruct E as [r E]. apply (f_equal (@rev ascii)) in E.
  rewrite rev_involutive, rev_app_distr, rev_involutive in E. exact (ends_bytes s F t (rev r) E).
Qed.
Lemma space_one : Forall one_byte [space].
Proof. repeat constructor. Qed.

(** ** Popping characters *)
Lemma pops_app t u : pops (length u) (t ++ u) = t.
Proof. unfold pops. rewrite app_length. replace (length t + length u - length u) with (length t + 0) by lia. rewrite firstn_app_2. cbn. apply app_nil_r. Qed.
Lemma pops_prefix n t : exists u, t = pops n t ++ u.
Proof. exists (skipn (length t - n) t). symmetry. apply firstn_skipn. Qed.
Lemma pops_blen n t : blen (pops n t) <= blen t - n.
Proof.
  unfold pops. destruct (Nat.le_gt_cases n (length t)) as [L|L].
  - assert (E : blen t = blen (firstn (length t - n) t) + blen (skipn (length t - n) t)) by (rewrite <- blen_app, firstn_skipn; reflexivity). pose proof (blen_length (skipn (length t - n) t)) as B. rewrite skipn_length in B. lia.
  - replace (length t - n) with 0 by lia. apply Nat.le_0_l.
Qed.
Lemma last_bytes_app t u : last_bytes (blen u) (t ++ u) = u.
Proof.
  induction t as [|c t IH].
  - cbn [app]. destruct u as [|x u]; [reflexivity|]. cbn [last_bytes]. rewrite Nat.leb_refl. reflexivity.
  - cbn [app last_bytes]. rewrite app_comm_cons, blen_app. destruct (Nat.leb_spec (blen (c :: t) + blen u) (blen u)) as [L|_]; [|exact IH].
    pose proof (blen_length (c :: t)) as B. cbn [length] in B. lia.
Qed.
Lemma trimmed_end_spec t : exists w, t = trimmed_end t ++ w /\ Forall (fun c => is_white c = true) w.
Proof.
  unfold trimmed_end.
  enough (E : exists w, rev t = w ++ drop_white (rev t) /\ Forall (fun c => is_white c = true) w).
  { destruct E as (w & E & F). exists (rev w). split; [rewrite <- rev_app_distr, <- E, rev_involutive; reflexivity|]. apply Forall_rev. exact F. }
  induction (rev t) as [|c r IH]; [exists []; split; [reflexivity|constructor]|]. cbn [drop_white]. destruct (is_white c) eqn:W.
  - destruct IH as (w & E & F). exists (c :: w). cbn. rewrite <- E. split; [reflexivity|]. constructor; assumption.
  - exists []. split; [reflexivity|constructor].
Qed.

(** ** Nodes *)
Lemma last_text_some l f t lc : last_text l = Some (f, t, lc) -> l = f ++ [(Text t, lc)].
Proof.
  revert f t lc. induction l as [|x l IH]; intros f t lc E; [discriminate|].
  destruct l as [|y l].
  - destruct x as [[]]; cbn in E; try discriminate. inversion E; subst. reflexivity.
  - assert (E' : last_text (x :: y :: l) = match last_text (y :: l) with Some (f, t, lc) => Some (x :: f, t, lc) | None => None end) by (destruct x as [[]]; reflexivity).
    rewrite E' in E. destruct (last_text (y :: l)) as [[[f' t'] lc']|]; [|discriminate]. inversion E; subst. cbn [app]. f_equal. exact (IH _ _ _ eq_refl).
Qed.
Lemma last_text_snoc l x : last_text (l ++ [x]) = match x with (Text t, lc) => Some (l, t, lc) | _ => None end.
Proof.
  induction l as [|y l IH]; [destruct x as [[]]; reflexivity|].
  assert (E : last_text ((y :: l) ++ [x]) = match last_text (l ++ [x]) with Some (f, t, lc) => Some (y :: f, t, lc) | None => None end).
  { destruct (l ++ [x]) eqn:Q; [destruct l; discriminate Q|]. cbn [app]. rewrite Q. destruct y as [[]]; reflexivity. }
  rewrite E, IH. destruct x as [[]]; reflexivity.
Qed.
Lemma chars_app t u : chars (t ++ u) = chars t ++ chars u.
Proof. apply map_app. Qed.
Lemma held_app f g : flat_map held (f ++ g) = flat_map held f ++ flat_map held g.
Proof. apply flat_map_app. Qed.

(** all that the collector has *)
Definition has (a : accum) : list shown := flat_map held (inlines a) ++ chars (pending a).
Lemma commit_pending a : pending (commit a) = [].
Proof. unfold commit. destruct (pending a) eqn:E; [exact E|]. destruct (last_text (inlines a)) as [[[]]|]; reflexivity. Qed.
Lemma commit_fin a : fin (at_ (commit a)) = fin (at_ a).
Proof. unfold commit. destruct (pending a); [reflexivity|]. destruct (last_text (inlines a)) as [[[]]|]; reflexivity. Qed.
Lemma commit_held a : flat_map held (inlines (commit a)) = has a.
Proof.
  unfold commit, has. destruct (pending a) as [|c r] eqn:E; [cbn; rewrite app_nil_r; reflexivity|].
  destruct (last_text (inlines a)) as [[[f t] lc]|] eqn:L; cbn [inlines].
  - apply last_text_some in L. rewrite L, !held_app. cbn [flat_map held fst]. rewrite !app_nil_r, chars_app, app_assoc. reflexivity.
  - rewrite held_app. cbn [flat_map held fst]. rewrite app_nil_r. reflexivity.
Qed.
Lemma commit_has a : has (commit a) = has a.
Proof. unfold has at 1. rewrite commit_held, commit_pending. cbn. apply app_nil_r. Qed.
Lemma push_node_has c l a : has (push_node c l a) = has a ++ held (c, l).
Proof. unfold push_node, has at 1. cbn [inlines pending]. rewrite held_app, commit_held. cbn [flat_map chars map]. rewrite !app_nil_r. reflexivity. Qed.
Lemma push_text_has t l a : has (push_text_token t l a) = has a ++ chars t.
Proof.
  unfold push_text_token. destruct (_ =? _).
  - unfold push_token, has. cbn [inlines pending]. rewrite chars_app, app_assoc. reflexivity.
  - rewrite <- (commit_has a). unfold push_token, has. cbn [inlines pending]. rewrite chars_app, app_assoc. reflexivity.
Qed.

(** ** The run *)
Lemma run_snoc word os o a : run word (os ++ [o]) a = match run word os a with Ret a' => step word o a' | Panic => Panic end.
Proof. revert a. induction os as [|p os IH]; intro a; cbn [app run]; [destruct (step word o a); reflexivity|]. destruct (step word p a); [apply IH|reflexivity]. Qed.
Definition from (l : loc) : accum := Accum [] [] l.
Lemma snoc_ret word os o l a : run word (os ++ [o]) (from l) = Ret a -> exists a', run word os (from l) = Ret a' /\ step word o a' = Ret a.
Proof. rewrite run_snoc. destruct (run word os (from l)) as [a'|]; [|discriminate]. intro E. exists a'. split; [reflexivity|exact E]. Qed.

Lemma Forall_white_ink w : Forall (fun c => is_white c = true) w -> ink (chars w) = [].
Proof. induction 1 as [|c w H _ IH]; [reflexivity|]. unfold ink, chars in *. cbn [map filter inked]. rewrite H. cbn [negb]. exact IH. Qed.
Lemma ink_app f g : ink (f ++ g) = ink f ++ ink g.
Proof. apply filter_app. Qed.

(** *** trim_end and the line comment *)
Definition narrow (t : text) : Prop := forall c, In c t -> is_white c = true -> one_byte c.
Lemma trim_end_narrow a a' : narrow (pending a) -> trim_end a = Ret a' ->
  exists w, pending a = pending a' ++ w /\ Forall (fun c => is_white c = true) w /\ Forall one_byte w /\ inlines a' = inlines a /\
    start (at_ a') = start (at_ a) /\ fin (at_ a) = fin (at_ a') + length w.
Proof.
  intros N E. unfold trim_end in E. destruct (negb _).
  { inversion E; subst. exists []. rewrite app_nil_r. repeat split; auto. }
  destruct (trimmed_end_spec (pending a)) as (w & W & F).
  assert (O : Forall one_byte w).
  { apply Forall_forall. intros c I. apply N; [rewrite W; apply in_or_app; right; exact I|]. rewrite Forall_forall in F. exact (F c I). }
  remember (trimmed_end (pending a)) as t. rewrite W, blen_app, (blen_one w O) in E.
  replace (blen t + length w - blen t) with (length w) in E by lia.
  destruct (Nat.ltb_spec (fin (at_ a)) (length w)) as [|L]; [discriminate|]. inversion E; subst a'. cbn [pending inlines at_ start fin].
  exists w. rewrite pops_app. repeat split; auto. lia.
Qed.
(** what the recovery of a line comment does: nothing, or it makes a node of the end of the text *)
Lemma tuck_spec comment a a' : Forall one_byte comment -> recover_custom_line_comment comment a = Ret a' ->
  a' = a \/ exists f u e, pending a = f ++ u /\ Forall one_byte u /\ fin (at_ a) = e + length u /\
    a' = push_node (CalloutTuck u) (Loc e (e + length u)) (Accum (inlines a) f (Loc (start (at_ a)) e)).
Proof.
  intros F E. unfold recover_custom_line_comment in E.
  set (line := if ends_with (pending a) [space] then pops 1 (pending a) else pending a) in E.
  destruct (ends_with line comment) eqn:M; [|left; inversion E; reflexivity]. right.
  apply ends_with_spec in M; [|exact F]. destruct M as [f M].
  assert (U : exists u, pending a = f ++ u /\ Forall one_byte u /\ length u = (if ends_with (pending a) [space] then blen comment + 1 else blen comment)).
  { destruct (ends_with (pending a) [space]) eqn:S.
    - apply ends_with_spec in S; [|exact space_one]. destruct S as [g S]. subst line. rewrite S in M. change 1 with (length [space]) in M. rewrite pops_app in M. subst g.
      exists (comment ++ [space]). rewrite S, app_assoc. repeat split; [apply Forall_app; split; [exact F|exact space_one]|]. rewrite app_length, (blen_one comment F). reflexivity.
    - exists comment. repeat split; [exact M|exact F|]. symmetry. apply blen_one. exact F. }
  destruct U as (u & U & O & L). rewrite <- L in E. clear L M line. unfold drop_last in E.
  assert (LB : last_bytes (length u) (pending a) = u) by (rewrite <- (blen_one u O), U; apply last_bytes_app). rewrite LB in E.
  destruct (_ <? _) in E; [discriminate|]. destruct (Nat.ltb_spec (fin (at_ a)) (length u)) as [|L]; [discriminate|].
  cbn [at_ fin start] in E. inversion E; subst a'. exists f, u, (fin (at_ a) - length u). repeat split; [exact U|exact O|lia|].
  rewrite U, pops_app. f_equal.
Qed.

(** ** Nothing is lost *)
Lemma last_in (t : text) c : last (map Some t) None = Some c -> exists f, t = f ++ [c].
Proof.
  destruct t as [|x t _] using rev_ind; [discriminate|]. rewrite map_app. cbn [map]. rewrite last_last. intro E. inversion E; subst. exists t. reflexivity.
Qed.
Lemma last_none (t : text) : last (map Some t) None = None -> t = [].
Proof. destruct t as [|x t _] using rev_ind; [reflexivity|]. rewrite map_app. cbn [map]. rewrite last_last. discriminate. Qed.
Lemma chars_repeat n : chars (repeat dash n) = dashes n.
Proof. unfold chars, dashes. induction n as [|n IH]; [reflexivity|]. cbn. f_equal. exact IH. Qed.
Lemma rev_head {A} (l : list A) x r : rev l = x :: r -> l = rev r ++ [x].
Proof. intro E. rewrite <- (rev_involutive l), E. reflexivity. Qed.
(** what a run of dashes does: it is text, a symbol, or stands for itself and the space around it *)
Inductive dashed (n : nat) (l : loc) (a a' : accum) : Prop :=
| D_text : a' = push_text_token (repeat dash n) l a -> dashed n l a a'
| D_symbol : a' = push_node (Symbol n) l a -> dashed n l a a'
| D_space f lc : pending a = f ++ [space] -> 0 < start l -> a' = push_node (SpacedDashes n NoNewline) lc (Accum (inlines a) f (Loc (start (at_ a)) (fin (at_ a) - 1))) -> dashed n l a a'
| D_newline f ln lc : pending a = [] -> inlines a = f ++ [(Newline, ln)] -> a' = push_node (SpacedDashes n Leading) lc (Accum f [] (at_ a)) -> dashed n l a a'
| D_start lc : pending a = [] -> a' = push_node (SpacedDashes n NoNewline) lc a -> dashed n l a a'.
Lemma dashed_spec word n l x a a' : push_emdash word n l x a = Ret a' -> dashed n l a a'.
Proof.
  unfold push_emdash. intro E. destruct (last (map Some (pending a)) None) as [c|] eqn:L.
  - apply last_in in L. destruct L as [f L].
    assert (E' : (if match x with Some m => word c && word m | None => false end then Ret (push_node (Symbol n) l a)
      else if N.eqb c space && match x with None => true | Some c => N.eqb c space end then
        if start l =? 0 then Panic else match drop_last 1 a with Ret b => Ret (push_node (SpacedDashes n NoNewline) (Loc (start l - 1) (fin l + 1)) b) | Panic => Panic end
      else Ret (push_text_token (repeat dash n) l a)) = Ret a') by (destruct x; exact E).
    clear E. destruct (match x with Some m => word c && word m | None => false end); [inversion E'; apply D_symbol; reflexivity|].
    destruct (N.eqb_spec c space) as [->|]; cbn [andb] in E'; [|inversion E'; apply D_text; reflexivity].
    destruct (match x with None => true | Some c => N.eqb c space end); [|inversion E'; apply D_text; reflexivity].
    destruct (Nat.eqb_spec (start l) 0) as [|P]; [discriminate|].
    unfold drop_last in E'. destruct (_ <? _) in E'; [discriminate|]. destruct (_ <? _) in E'; [discriminate|]. inversion E'; subst a'.
    eapply D_space; [exact L|lia|]. rewrite L, (pops_app f [space] : pops 1 _ = f). reflexivity.
  - apply last_none in L. destruct x as [m|]; [|inversion E; apply D_text; reflexivity]. cbn [andb] in E.
    destruct (N.eqb m space); [|inversion E; apply D_text; reflexivity].
    destruct (rev (inlines a)) as [|[[] ln] r] eqn:R; try (inversion E; eapply D_start; [exact L|reflexivity]).
    apply rev_head in R. destruct (start l =? 0); [discriminate|]. inversion E. rewrite L. eapply D_newline; [exact L|exact R|reflexivity].
Qed.
Inductive joined (a a' : accum) : Prop :=
| J_newline l : a' = push_node Newline l (Accum (inlines (commit a)) [] l) -> l = Loc (start (at_ (commit a))) (fin (at_ a) + 1) -> joined a a'
| J_dashes f n lc lc' l : inlines (commit a) = f ++ [(SpacedDashes n NoNewline, lc)] -> a' = Accum (f ++ [(SpacedDashes 2 Trailing, lc')]) [] l -> joined a a'.
Lemma joined_spec a : joined a (join_newline a).
Proof.
  unfold join_newline. cbn [inlines pending at_]. rewrite commit_pending, commit_fin.
  destruct (rev (inlines (commit a))) as [|[c lc] r] eqn:R; [eapply J_newline; reflexivity|].
  apply rev_head in R. destruct c as [| | |n []| |]; try (eapply J_newline; reflexivity). eapply J_dashes; [exact R|reflexivity].
Qed.
Lemma tuck_any comment a a' : recover_custom_line_comment comment a = Ret a' ->
  a' = a \/ exists n t l, a' = push_node (CalloutTuck t) l (Accum (inlines a) (pops n (pending a)) (Loc (start (at_ a)) (fin (at_ a) - n))).
Proof.
  unfold recover_custom_line_comment. intro E. set (line := if ends_with (pending a) [space] then _ else _) in E.
  destruct (ends_with line comment); [|left; inversion E; reflexivity]. right.
  unfold drop_last in E. destruct (_ <? _) in E; [discriminate|]. destruct (_ <? _) in E; [discriminate|]. inversion E. eexists _, _, _. reflexivity.
Qed.

(** the pending text is of what was given *)
Lemma pending_given word os l a : run word os (from l) = Ret a -> forall c, In c (pending a) -> exists o, In o os /\ In (Char c) (given o).
Proof.
  revert a. induction os as [|o os IH] using rev_ind; intros a E; [inversion E; subst; intros c []|].
  apply snoc_ret in E. destruct E as (b & E & H). specialize (IH b E).
  assert (K : (forall c, In c (pending a) -> In c (pending b) \/ In (Char c) (given o))).
  { assert (PT : forall t lt c, In c (pending (push_text_token t lt b)) -> In c (pending b) \/ In (Char c) (chars t)).
    { intros t lt c I. unfold push_text_token in I. destruct (_ =? _); cbn [pending push_token] in I.
      - apply in_app_or in I. destruct I as [I|I]; [left; exact I|right; apply in_map; exact I].
      - rewrite commit_pending in I. right. apply in_map. exact I. }
    assert (P : forall n, (exists u, pending b = pops n (pending b) ++ u)) by (intro n; apply pops_prefix).
    destruct o; cbn [step given] in *.
    - inversion H; subst. apply PT.
    - inversion H; subst. intros c I. cbn [pending push_str] in I. apply in_app_or in I. destruct I as [I|I]; [left; exact I|right; apply in_map; exact I].
    - inversion H; subst. intros c [].
    - apply dashed_spec in H. inversion H; subst; try (intros c []; fail). rewrite <- chars_repeat. apply PT.
    - inversion H; subst. intros c I. left. exact I.
    - inversion H; subst. rewrite commit_pending. intros c [].
    - unfold trim_end in H. destruct (negb _); [inversion H; subst; intros c I; left; exact I|]. destruct (_ <? _); [discriminate|]. inversion H; subst. cbn [pending].
      intros c I. left. match type of I with In _ (pops ?m _) => destruct (P m) as [u U] end. rewrite U. apply in_or_app. left. exact I.
    - apply tuck_any in H. destruct H as [->|(n & t & lt & ->)]; [intros c I; left; exact I|intros c []].
    - inversion H; subst. destruct (joined_spec b) as [lc J _|f n lc lc' lc'' _ J]; rewrite J; intros c []. }
  intros c I. destruct (K c I) as [J|J]; [destruct (IH c J) as (p & P & Q); exists p; split; [apply in_or_app; left; exact P|exact Q]|].
  exists o. split; [apply in_or_app; right; left; reflexivity|exact J].
Qed.

(** the nodes a commit leaves *)
Lemma commit_nodes a c lc : In (c, lc) (inlines (commit a)) -> (exists t, c = Text t) \/ In (c, lc) (inlines a).
Proof.
  unfold commit. destruct (pending a); [right; assumption|]. destruct (last_text (inlines a)) as [[[f t0] lc0]|] eqn:L; cbn [inlines]; intro I; apply in_app_or in I; destruct I as [I|[I|[]]].
  - right. apply last_text_some in L. rewrite L. apply in_or_app. left. exact I.
  - left. inversion I; subst. eexists. reflexivity.
  - right. exact I.
  - left. inversion I; subst. eexists. reflexivity.
Qed.
Lemma push_node_nodes d ld a c lc : In (c, lc) (inlines (push_node d ld a)) -> (exists t, c = Text t) \/ In (c, lc) (inlines a) \/ (c, lc) = (d, ld).
Proof.
  unfold push_node. cbn [inlines]. intro I. apply in_app_or in I. destruct I as [I|[I|[]]]; [|right; right; symmetry; exact I].
  apply commit_nodes in I. destruct I; [left|right; left]; assumption.
Qed.
(** spaced dashes come of dashes *)
Lemma spaced_given word os l a : run word os (from l) = Ret a -> forall n k lc, In (SpacedDashes n k, lc) (inlines a) -> n = 2 \/ exists ld x, In (Dashes n ld x) os.
Proof.
  revert a. induction os as [|o os IH] using rev_ind; intros a E; [inversion E; subst; intros n k lc []|].
  apply snoc_ret in E. destruct E as (b & E & H). specialize (IH b E).
  assert (K : forall n k lc, In (SpacedDashes n k, lc) (inlines a) -> n = 2 \/ (exists k lc, In (SpacedDashes n k, lc) (inlines b)) \/ exists ld x, o = Dashes n ld x).
  { assert (CM : forall n k lc, In (SpacedDashes n k, lc) (inlines (commit b)) -> exists k lc, In (SpacedDashes n k, lc) (inlines b)).
    { intros n k lc I. apply commit_nodes in I. destruct I as [[t I]|I]; [discriminate|eexists _, _; exact I]. }
    assert (PT : forall t lt n k lc, In (SpacedDashes n k, lc) (inlines (push_text_token t lt b)) -> exists k lc, In (SpacedDashes n k, lc) (inlines b)).
    { intros t lt n k lc I. unfold push_text_token in I. destruct (_ =? _); cbn [inlines push_token] in I; [eexists _, _; exact I|exact (CM n k lc I)]. }
    assert (PN : forall d ld f pe le n k lc, (forall m q, d <> SpacedDashes m q) -> In (SpacedDashes n k, lc) (inlines (push_node d ld (Accum f pe le))) -> In (SpacedDashes n k, lc) f).
    { intros d ld f pe le n k lc D I. apply push_node_nodes in I. destruct I as [[t I]|[I|I]]; [discriminate|exact I|]. inversion I; subst. destruct (D n k eq_refl). }
    destruct o; cbn [step] in H.
    - inversion H; subst. intros m k lc I. right. left. eapply PT. exact I.
    - inversion H; subst. intros m k lc I. right. left. eexists _, _. exact I.
    - inversion H; subst. intros m k lc I. right. left. destruct b. eexists _, _. eapply PN; [|exact I]. discriminate.
    - apply dashed_spec in H. intros m k lc I. inversion H as [Q|Q|f lc1 Q1 Q2 Q|f ln lc1 Q1 Q2 Q|lc1 Q1 Q]; subst a.
      + right. left. eapply PT. exact I.
      + right. left. destruct b. eexists _, _. eapply PN; [|exact I]. discriminate.
      + apply push_node_nodes in I. destruct I as [[t I]|[I|I]]; [discriminate|right; left; eexists _, _; exact I|]. inversion I; subst. right. right. eexists _, _. reflexivity.
      + apply push_node_nodes in I. destruct I as [[t I]|[I|I]]; [discriminate| |].
        * right. left. exists k, lc. rewrite Q2. apply in_or_app. left. exact I.
        * inversion I; subst. right. right. eexists _, _. reflexivity.
      + apply push_node_nodes in I. destruct I as [[t I]|[I|I]]; [discriminate|right; left; eexists _, _; exact I|]. inversion I; subst. right. right. eexists _, _. reflexivity.
    - inversion H; subst. intros m k lc I. right. left. eexists _, _. exact I.
    - inversion H; subst. intros m k lc I. right. left. eapply CM. exact I.
    - unfold trim_end in H. intros m k lc I. right. left. destruct (negb _); [inversion H; subst; eexists _, _; exact I|]. destruct (_ <? _); [discriminate|]. inversion H; subst. eexists _, _. exact I.
    - apply tuck_any in H. intros m k lc I. right. left. destruct H as [->|(n & t & lt & ->)]; [eexists _, _; exact I|]. eexists _, _. eapply PN; [|exact I]. discriminate.
    - inversion H; subst. intros m k lc I. destruct (joined_spec b) as [l1 J _|f n lc1 lc' lc'' F J]; rewrite J in I.
      + right. left. apply PN in I; [|discriminate]. eapply CM. exact I.
      + cbn [inlines] in I. apply in_app_or in I. destruct I as [I|[I|[]]]; [|inversion I; left; reflexivity].
        right. left. eapply (CM m k lc). rewrite F. apply in_or_app. left. exact I. }
  intros n k lc I. destruct (K n k lc I) as [J|[(k' & lc' & J)|(ld & x & J)]]; [left; exact J| |].
  - destruct (IH n k' lc' J) as [J'|(ld & x & J')]; [left; exact J'|]. right. exists ld, x. apply in_or_app. left. exact J'.
  - right. exists ld, x. apply in_or_app. right. left. exact J.
Qed.

Lemma narrow_prefix os o : narrow_white (os ++ [o]) -> narrow_white os.
Proof. intros N I p c P. apply N; apply in_or_app; left; assumption. Qed.
Lemma comments_prefix os o : narrow_comments (os ++ [o]) -> narrow_comments os.
Proof. intros N c I. apply N. apply in_or_app. left. exact I. Qed.
Lemma two_prefix os o : two_dashes (os ++ [o]) -> two_dashes os.
Proof. intros [T|T]; [left; intros n l x I; apply (T n l x)|right; intro I; apply T]; apply in_or_app; left; exact I. Qed.

(** what a step does to all that the collector has *)
Lemma step_ink word os o l b a : narrow_white (os ++ [o]) -> narrow_comments (os ++ [o]) -> two_dashes (os ++ [o]) ->
  run word os (from l) = Ret b -> step word o b = Ret a -> ink (has a) = ink (has b) ++ ink (given o).
Proof.
  intros NW NC TD E H. destruct o; cbn [step given] in *.
  - inversion H; subst. rewrite push_text_has, ink_app. reflexivity.
  - inversion H; subst. unfold has, push_str. cbn [inlines pending]. rewrite chars_app, app_assoc, ink_app. reflexivity.
  - inversion H; subst. rewrite push_node_has, ink_app. reflexivity.
  - apply dashed_spec in H. inversion H as [Q|Q|f lc1 Q1 Q2 Q|f ln lc1 Q1 Q2 Q|lc1 Q1 Q]; subst a.
    + rewrite push_text_has, ink_app, chars_repeat. reflexivity.
    + rewrite push_node_has, ink_app. reflexivity.
    + rewrite push_node_has, ink_app. f_equal. unfold has. cbn [inlines pending]. rewrite Q1, chars_app, app_assoc, (ink_app _ (chars [space])). cbn. rewrite app_nil_r. reflexivity.
    + rewrite push_node_has, ink_app. f_equal. unfold has. cbn [inlines pending]. rewrite Q1, Q2, held_app, !ink_app. cbn. rewrite !app_nil_r. reflexivity.
    + rewrite push_node_has, ink_app. reflexivity.
  - inversion H; subst. cbn. rewrite app_nil_r. reflexivity.
  - inversion H; subst. rewrite commit_has. cbn. rewrite app_nil_r. reflexivity.
  - assert (N : narrow (pending b)).
    { intros c I W. destruct (pending_given word os l b E c I) as (p & P & Q). apply (NW (in_elt TrimEnd os []) p c); [apply in_or_app; left; exact P|exact Q|exact W]. }
    destruct (trim_end_narrow b a N H) as (w & W & F & _ & L & _). unfold has. rewrite L, W, chars_app, app_assoc, (ink_app _ (chars w)), (Forall_white_ink w F). cbn. rewrite !app_nil_r. reflexivity.
  - apply tuck_spec in H; [|apply NC; apply in_or_app; right; left; reflexivity]. destruct H as [->|(f & u & e & P & _ & _ & ->)]; [cbn; rewrite app_nil_r; reflexivity|].
    rewrite push_node_has. unfold has. cbn [inlines pending held fst]. rewrite P, chars_app, app_assoc. cbn. rewrite app_nil_r. reflexivity.
  - inversion H; subst. destruct (joined_spec b) as [lc J _|f n lc lc' lc'' F J]; rewrite J.
    + rewrite push_node_has, ink_app. unfold has at 1. cbn [inlines pending]. rewrite commit_held. cbn. rewrite !app_nil_r. reflexivity.
    + rewrite <- (commit_has b). unfold has. rewrite commit_pending. cbn [inlines pending]. rewrite F, !held_app.
      assert (n = 2); [|subst; cbn; rewrite !app_nil_r; reflexivity].
      assert (I : In (SpacedDashes n NoNewline, lc) (inlines b)).
      { assert (I : In (SpacedDashes n NoNewline, lc) (inlines (commit b))) by (rewrite F; apply in_or_app; right; left; reflexivity).
        apply commit_nodes in I. destruct I as [[t I]|I]; [discriminate|exact I]. }
      destruct (spaced_given word os l b E n NoNewline lc I) as [->|(ld & x & D)]; [reflexivity|]. destruct TD as [T|T].
      * apply (T n ld x). apply in_or_app. left. exact D.
      * destruct T. apply in_or_app. right. left. reflexivity.
Qed.
Lemma run_ink word os l a : narrow_white os -> narrow_comments os -> two_dashes os -> run word os (from l) = Ret a -> ink (has a) = ink (flat_map given os).
Proof.
  revert a. induction os as [|o os IH] using rev_ind; intros a NW NC TD E; [inversion E; reflexivity|].
  apply snoc_ret in E. destruct E as (b & E & H). rewrite (step_ink word os o l b a NW NC TD E H), flat_map_app, ink_app.
  rewrite (IH b (narrow_prefix _ _ NW) (comments_prefix _ _ NC) (two_prefix _ _ TD) E). cbn. rewrite app_nil_r. reflexivity.
Qed.

(** with no dashes and nothing trimmed, white space is kept as well *)
Lemma no_spaced word os l b n k lc : Forall plain_op os -> run word os (from l) = Ret b -> In (SpacedDashes n k, lc) (inlines b) -> False.
Proof.
  revert b n k lc. induction os as [|o os IH] using rev_ind; intros b n k lc P E I; [inversion E; subst; destruct I|].
  apply Forall_app in P. destruct P as [P Po]. inversion Po as [|? ? Q _]; subst.
  apply snoc_ret in E. destruct E as (b0 & E & H). specialize (IH b0).
  assert (CM : forall n k lc, In (SpacedDashes n k, lc) (inlines (commit b0)) -> False).
  { intros m q lq J. apply commit_nodes in J. destruct J as [[t J]|J]; [discriminate|exact (IH m q lq P E J)]. }
  destruct o; cbn [step plain_op] in *; try contradiction.
  - inversion H; subst. unfold push_text_token in I. destruct (_ =? _); cbn [inlines push_token] in I; [exact (IH n k lc P E I)|exact (CM n k lc I)].
  - inversion H; subst. exact (IH n k lc P E I).
  - inversion H; subst. apply push_node_nodes in I. destruct I as [[t I]|[I|I]]; [discriminate|exact (IH n k lc P E I)|discriminate].
  - inversion H; subst. exact (IH n k lc P E I).
  - inversion H; subst. exact (CM n k lc I).
  - apply tuck_any in H. destruct H as [->|(m & t & lt & ->)]; [exact (IH n k lc P E I)|].
    apply push_node_nodes in I. destruct I as [[t' I]|[I|I]]; [discriminate|exact (IH n k lc P E I)|discriminate].
  - inversion H; subst. destruct (joined_spec b0) as [l1 J _|f m lc1 lc' lc'' F J].
    + rewrite J in I. apply push_node_nodes in I. destruct I as [[t' I]|[I|I]]; [discriminate|exact (CM n k lc I)|discriminate].
    + apply (CM m NoNewline lc1). rewrite F. apply in_or_app. right. left. reflexivity.
Qed.
Lemma run_exact word os l a : Forall plain_op os -> narrow_comments os -> run word os (from l) = Ret a -> has a = flat_map given os.
Proof.
  revert a. induction os as [|o os IH] using rev_ind; intros a P NC E; [inversion E; reflexivity|].
  apply snoc_ret in E. destruct E as (b & E & H). pose proof P as P0. apply Forall_app in P. destruct P as [P Po]. inversion Po as [|? ? Q _]; subst.
  rewrite flat_map_app. cbn [flat_map]. rewrite app_nil_r, <- (IH b P (comments_prefix _ _ NC) E).
  destruct o; cbn [step plain_op given] in *; try contradiction.
  - inversion H; subst. apply push_text_has.
  - inversion H; subst. unfold has, push_str. cbn [inlines pending]. rewrite chars_app, app_assoc. reflexivity.
  - inversion H; subst. apply push_node_has.
  - inversion H; subst. cbn. rewrite app_nil_r. reflexivity.
  - inversion H; subst. rewrite commit_has, app_nil_r. reflexivity.
  - apply tuck_spec in H; [|apply NC; apply in_or_app; right; left; reflexivity]. destruct H as [->|(f & u & e & PE & _ & _ & ->)]; [rewrite app_nil_r; reflexivity|].
    rewrite push_node_has. unfold has. cbn [inlines pending held fst]. rewrite PE, chars_app, app_assoc, app_nil_r. reflexivity.
  - inversion H; subst. destruct (joined_spec b) as [lc J _|f n lc lc' lc'' F J].
    + rewrite J, push_node_has. unfold has at 1. cbn [inlines pending]. rewrite commit_held. cbn. rewrite !app_nil_r. reflexivity.
    + assert (I : In (SpacedDashes n NoNewline, lc) (inlines (commit b))) by (rewrite F; apply in_or_app; right; left; reflexivity).
      apply commit_nodes in I. destruct I as [[t I]|I]; [discriminate|]. destruct (no_spaced word os l b _ _ _ P E I).
Qed.

(** ** Neighbours *)
Definition tidy (l : list node) : Prop := no_empty_text l /\ no_neighbours l.
Lemma tidy_prefix f g : tidy (f ++ g) -> tidy f.
Proof.
  intros [A B]. split; [intros n I; apply A, in_or_app; left; exact I|]. intros h x y r E. apply (B h x y (r ++ g)). rewrite E, <- app_assoc. reflexivity.
Qed.
Lemma tidy_snoc l c lc : tidy l -> c <> Text [] -> (forall t f x, c = Text t -> l = f ++ [x] -> is_text x = false) -> tidy (l ++ [(c, lc)]).
Proof.
  intros [A B] N T. split.
  - intros n I. apply in_app_or in I. destruct I as [I|[<-|[]]]; [exact (A n I)|exact N].
  - intros f x y r E. destruct r as [|z r _] using rev_ind.
    + change [x; y] with ([x] ++ [y]) in E. rewrite app_assoc in E. apply app_inj_tail in E. destruct E as [E <-].
      destruct (is_text (c, lc)) eqn:I; [|apply andb_false_r]. destruct c; try discriminate. rewrite (T t f x eq_refl E). reflexivity.
    + rewrite !app_comm_cons, app_assoc in E. apply app_inj_tail in E. destruct E as [E _]. exact (B f x y r E).
Qed.
Lemma commit_tidy a : tidy (inlines a) -> tidy (inlines (commit a)).
Proof.
  intro T. unfold commit. destruct (pending a) as [|c r]; [exact T|]. destruct (last_text (inlines a)) as [[[f t] lc]|] eqn:L; cbn [inlines].
  - apply last_text_some in L. rewrite L in T. apply tidy_snoc; [exact (tidy_prefix _ _ T)|destruct t; discriminate|].
    intros _ g x _ E. destruct T as [_ T]. assert (Q : is_text x && is_text (Text t, lc) = false) by (apply (T g x (Text t, lc) []); rewrite E, <- app_assoc; reflexivity). rewrite andb_true_r in Q. exact Q.
  - apply tidy_snoc; [exact T|discriminate|]. intros _ g [x lx] _ E. rewrite E, last_text_snoc in L. destruct x; [discriminate|reflexivity..].
Qed.
Lemma push_node_tidy c l a : tidy (inlines a) -> (forall t, c <> Text t) -> tidy (inlines (push_node c l a)).
Proof. intros T N. apply tidy_snoc; [exact (commit_tidy a T)|apply N|]. intros t f x E. destruct (N t E). Qed.
Lemma push_text_tidy t l a : tidy (inlines a) -> tidy (inlines (push_text_token t l a)).
Proof. intro T. unfold push_text_token. destruct (_ =? _); [exact T|exact (commit_tidy a T)]. Qed.
Lemma step_tidy word o b a : step word o b = Ret a -> tidy (inlines b) -> tidy (inlines a).
Proof.
  intros H T. destruct o; cbn [step] in H.
  - inversion H; subst. apply push_text_tidy, T.
  - inversion H; subst. exact T.
  - inversion H; subst. apply push_node_tidy; [exact T|discriminate].
  - apply dashed_spec in H. inversion H as [Q|Q|f lc1 Q1 Q2 Q|f ln lc1 Q1 Q2 Q|lc1 Q1 Q]; subst a.
    + apply push_text_tidy, T.
    + apply push_node_tidy; [exact T|discriminate].
    + apply push_node_tidy; [exact T|discriminate].
    + rewrite Q2 in T. apply push_node_tidy; [exact (tidy_prefix _ _ T)|discriminate].
    + apply push_node_tidy; [exact T|discriminate].
  - inversion H; subst. exact T.
  - inversion H; subst. apply commit_tidy, T.
  - unfold trim_end in H. destruct (negb _); [inversion H; subst; exact T|]. destruct (_ <? _); [discriminate|]. inversion H; subst. exact T.
  - apply tuck_any in H. destruct H as [->|(n & t & lt & ->)]; [exact T|]. apply push_node_tidy; [exact T|discriminate].
  - inversion H; subst. destruct (joined_spec b) as [l1 J _|f m lc1 lc' lc'' F J]; rewrite J.
    + apply push_node_tidy; [exact (commit_tidy b T)|discriminate].
    + cbn [inlines]. pose proof (commit_tidy b T) as C. rewrite F in C. apply tidy_snoc; [exact (tidy_prefix _ _ C)|discriminate..].
Qed.
Lemma run_tidy word os : forall b a, run word os b = Ret a -> tidy (inlines b) -> tidy (inlines a).
Proof.
  induction os as [|o os IH]; intros b a E T; cbn [run] in E; [inversion E; subst; exact T|].
  destruct (step word o b) as [b'|] eqn:H; [|discriminate]. exact (IH b' a E (step_tidy word o b b' H T)).
Qed.
Lemma tidy_nil : tidy [].
Proof. split; [intros n []|intros [|] x y r E; discriminate]. Qed.

(** ** No panic *)
Lemma push_text_fits t l a : fin l = start l + blen t -> blen (pending a) <= fin (at_ a) -> blen (pending (push_text_token t l a)) <= fin (at_ (push_text_token t l a)).
Proof.
  intros L F. unfold push_text_token. destruct (Nat.eqb_spec (fin (at_ a)) (start l)) as [E|_]; cbn [pending at_ push_token extend fin].
  - rewrite blen_app. lia.
  - rewrite commit_pending. cbn [app]. lia.
Qed.
Lemma step_safe word os o l b : located o -> (forall n ld x, o = Dashes n ld x -> os = [] \/ 0 < start ld) -> (forall e, o = Finish e -> exists g, os = g ++ [Commit]) ->
  run word os (from l) = Ret b -> blen (pending b) <= fin (at_ b) -> exists a, step word o b = Ret a /\ blen (pending a) <= fin (at_ a).
Proof.
  intros LO DP FC E F. destruct o; cbn [step located] in *.
  - eexists. split; [reflexivity|]. apply push_text_fits; assumption.
  - eexists. split; [reflexivity|]. cbn [push_str pending at_ fin]. rewrite blen_app. lia.
  - eexists. split; [reflexivity|]. apply Nat.le_0_l.
  - assert (X : exists a, push_emdash word n l0 next b = Ret a).
    { unfold push_emdash. destruct (last (map Some (pending b)) None) as [c|] eqn:L.
      - apply last_in in L. destruct L as [f L].
        assert (B : 1 <= blen (pending b)) by (pose proof (blen_length (pending b)) as K; rewrite L in *; rewrite app_length in K; cbn [length] in K; lia).
        assert (P : 0 < start l0) by (destruct (DP _ _ _ eq_refl) as [->|P]; [inversion E; subst; destruct f; discriminate L|exact P]).
        assert (D : exists a, drop_last 1 b = Ret a).
        { unfold drop_last. destruct (Nat.ltb_spec (blen (pending b)) 1); [lia|]. destruct (Nat.ltb_spec (fin (at_ b)) 1); [lia|]. eexists. reflexivity. }
        destruct D as [d D]. rewrite D. destruct (Nat.eqb_spec (start l0) 0); [lia|].
        destruct next as [m|]; [destruct (word c && word m); [eexists; reflexivity|]|];
          match goal with |- context [if ?g then match _ with _ => _ end else _] => destruct g; eexists; reflexivity | |- context [if ?g then _ else _] => destruct g; eexists; reflexivity end.
      - destruct next as [m|]; [|eexists; reflexivity]. cbn [andb]. destruct (N.eqb m space); [|eexists; reflexivity].
        destruct (rev (inlines b)) as [|[[] ln] r] eqn:R; try (eexists; reflexivity).
        assert (P : 0 < start l0) by (destruct (DP _ _ _ eq_refl) as [->|P]; [inversion E; subst; discriminate R|exact P]).
        destruct (Nat.eqb_spec (start l0) 0); [lia|]. eexists. reflexivity. }
    destruct X as [a X]. exists a. split; [exact X|]. apply dashed_spec in X. inversion X as [Q|Q|f lc1 Q1 Q2 Q|f ln lc1 Q1 Q2 Q|lc1 Q1 Q]; subst a; try apply Nat.le_0_l.
    apply push_text_fits; [|exact F]. rewrite LO. f_equal. symmetry. rewrite blen_one; [apply repeat_length|]. apply Forall_forall. intros c I. apply repeat_spec in I. subst. reflexivity.
  - eexists. split; [reflexivity|]. destruct (FC e eq_refl) as [g ->]. apply snoc_ret in E. destruct E as (b0 & _ & H). inversion H; subst. cbn [finish_macro pending]. rewrite commit_pending. apply Nat.le_0_l.
  - eexists. split; [reflexivity|]. rewrite commit_pending. apply Nat.le_0_l.
  - unfold trim_end. destruct (negb _); [eexists; split; [reflexivity|exact F]|].
    destruct (Nat.ltb_spec (fin (at_ b)) (blen (pending b) - blen (trimmed_end (pending b)))); [lia|]. eexists. split; [reflexivity|]. cbn [pending at_ fin].
    pose proof (pops_blen (blen (pending b) - blen (trimmed_end (pending b))) (pending b)). lia.
  - unfold recover_custom_line_comment. set (line := if ends_with (pending b) [space] then pops 1 (pending b) else pending b).
    destruct (ends_with line comment) eqn:M; [|eexists; split; [reflexivity|exact F]].
    set (back := if ends_with (pending b) [space] then blen comment + 1 else blen comment).
    assert (K : back <= blen (pending b)).
    { assert (C : blen comment <= blen line).
      { unfold ends_with in M. apply starts_with_spec in M. destruct M as [r M]. apply (f_equal (@length ascii)) in M. rewrite app_length, !rev_length in M. unfold blen. lia. }
      subst line back. destruct (ends_with (pending b) [space]) eqn:S; [|exact C]. apply ends_with_spec in S; [|exact space_one]. destruct S as [g S]. rewrite S in *.
      rewrite (pops_app g [space] : pops 1 _ = g) in C. rewrite blen_app. change (blen [space]) with 1. lia. }
    unfold drop_last. destruct (Nat.ltb_spec (blen (pending b)) back); [lia|]. destruct (Nat.ltb_spec (fin (at_ b)) back); [lia|]. eexists. split; [reflexivity|]. apply Nat.le_0_l.
  - eexists. split; [reflexivity|]. destruct (joined_spec b) as [l1 J _|f m lc1 lc' lc'' G J]; rewrite J; apply Nat.le_0_l.
Qed.
Lemma run_safe word os l : Forall located os -> dashes_placed os -> finish_committed os -> exists a, run word os (from l) = Ret a /\ blen (pending a) <= fin (at_ a).
Proof.
  induction os as [|o os IH] using rev_ind; intros LO DP FC; [eexists; split; [reflexivity|apply Nat.le_0_l]|].
  apply Forall_app in LO. destruct LO as [LO Lo]. inversion Lo as [|? ? L1 _]; subst.
  destruct IH as (b & E & F); [exact LO| | |].
  - intros f n ld x r E. apply (DP f n ld x (r ++ [o])). rewrite E, <- app_assoc. reflexivity.
  - intros f e r E. apply (FC f e (r ++ [o])). rewrite E, <- app_assoc. reflexivity.
  - destruct (step_safe word os o l b L1) as (a & H & G); [| |exact E|exact F|].
    + intros n ld x ->. exact (DP os n ld x [] eq_refl).
    + intros e ->. exact (FC os e [] eq_refl).
    + exists a. rewrite run_snoc, E. split; assumption.
Qed.

(** ** Locations *)
Lemma skipn_skipn {A} n m (l : list A) : skipn n (skipn m l) = skipn (n + m) l.
Proof. revert l. induction m as [|m IH]; intro l; [rewrite Nat.add_0_r; reflexivity|]. rewrite Nat.add_succ_r. destruct l as [|x l]; [rewrite !skipn_nil; reflexivity|]. cbn [skipn]. apply IH. Qed.
Lemma slice_cat src s m e x y : slice src (Loc s m) = x -> slice src (Loc m e) = y -> m = s + length x -> e = m + length y -> slice src (Loc s e) = x ++ y.
Proof.
  unfold slice. cbn [start fin]. intros X Y M E.
  replace (e - s) with ((m - s) + (e - m)) by lia. rewrite <- (firstn_skipn (m - s) (skipn s src)) at 1. rewrite X.
  replace (m - s) with (length x) by lia. rewrite firstn_app_2. f_equal. rewrite skipn_skipn. replace (length x + s) with m by lia. exact Y.
Qed.
Lemma slice_split src s e x y : slice src (Loc s e) = x ++ y -> e = s + length x + length y -> slice src (Loc s (s + length x)) = x /\ slice src (Loc (s + length x) e) = y.
Proof.
  unfold slice. cbn [start fin]. intros E L. split.
  - replace (s + length x - s) with (length x) by lia. assert (K : firstn (length x) (firstn (e - s) (skipn s src)) = firstn (length x) (x ++ y)) by (rewrite E; reflexivity).
    rewrite firstn_firstn, Nat.min_l in K by lia. rewrite K. replace (length x) with (length x + 0) by lia. rewrite firstn_app_2. cbn. apply app_nil_r.
  - assert (K : skipn (length x) (firstn (e - s) (skipn s src)) = skipn (length x) (x ++ y)) by (rewrite E; reflexivity).
    rewrite skipn_firstn_comm, skipn_skipn, skipn_app, skipn_all, Nat.sub_diag in K. cbn [app skipn] in K.
    replace (length x + s) with (s + length x) in K by lia. replace (e - s - length x) with (e - (s + length x)) in K by lia. exact K.
Qed.
Lemma slice_nil src s : slice src (Loc s s) = [].
Proof. unfold slice. cbn. rewrite Nat.sub_diag. reflexivity. Qed.

Record placed (src : bytes) (p : option nat) (t : bool) (os : list op) (a : accum) : Prop := {
  pl_nodes : Forall (text_located src) (inlines a);
  pl_plain : forall n k lc, ~ In (SpacedDashes n k, lc) (inlines a);
  pl_slice : slice src (at_ a) = utf8_text (pending a);
  pl_len : fin (at_ a) = start (at_ a) + blen (pending a);
  pl_pos : forall q, p = Some q -> fin (at_ a) = q;
  pl_last : forall f x lc, inlines a = f ++ [(Text x, lc)] -> fin lc = start (at_ a) /\ fin lc = start lc + blen x;
  pl_text : t = false -> pending a = [] /\ forall f x lc, inlines a <> f ++ [(Text x, lc)];
  pl_narrow : In TrimEnd os -> narrow (pending a) }.

Lemma commit_placed src p t os a : placed src p t os a -> placed src p t os (commit a) /\ pending (commit a) = [].
Proof.
  intros [A B C D E F G H]. split; [|apply commit_pending]. unfold commit. destruct (pending a) as [|c r] eqn:P.
  { split; try assumption; rewrite P; assumption. }
  assert (T : t = true) by (destruct t; [reflexivity|destruct (G eq_refl); discriminate]). subst t.
  destruct (last_text (inlines a)) as [[[f x] lc]|] eqn:L.
  - apply last_text_some in L. destruct (F f x lc L) as [F1 F2]. rewrite L in A. apply Forall_app in A. destruct A as [A A1]. inversion A1 as [|? ? A2 _]; subst. cbn [text_located fst snd] in A2.
    assert (K : extend lc (clamp_end (at_ a)) = Loc (start lc) (fin (at_ a))) by (unfold extend, clamp_end; cbn; f_equal; lia). rewrite K.
    split; cbn [inlines pending at_ clamp_end start fin].
    + apply Forall_app. split; [exact A|]. constructor; [|constructor]. cbn [text_located fst snd]. rewrite utf8_app.
      apply (slice_cat src (start lc) (fin lc) (fin (at_ a))); [destruct lc; exact A2| |exact F2|].
      * rewrite F1. destruct (at_ a); exact C.
      * unfold blen in D. lia.
    + intros n k l I. apply in_app_or in I. destruct I as [I|[I|[]]]; [|discriminate]. apply (B n k l). rewrite L. apply in_or_app. left. exact I.
    + apply slice_nil.
    + change (blen []) with 0. lia.
    + exact E.
    + intros g y ly Q. apply app_inj_tail in Q. destruct Q as [_ Q]. inversion Q; subst. cbn [fin start]. split; [reflexivity|]. rewrite blen_app. lia.
    + discriminate.
    + intros _ y [].
  - split; cbn [inlines pending at_ clamp_end start fin].
    + apply Forall_app. split; [exact A|]. constructor; [|constructor]. exact C.
    + intros n k l I. apply in_app_or in I. destruct I as [I|[I|[]]]; [|discriminate]. exact (B n k l I).
    + apply slice_nil.
    + change (blen []) with 0. lia.
    + exact E.
    + intros g y ly Q. apply app_inj_tail in Q. destruct Q as [_ Q]. inversion Q; subst. split; [reflexivity|exact D].
    + discriminate.
    + intros _ y [].
Qed.
Lemma push_node_placed src os c l a : Forall (text_located src) (inlines (commit a)) -> (forall n k lc, ~ In (SpacedDashes n k, lc) (inlines (commit a))) ->
  text_located src (c, l) -> (forall x, c <> Text x) -> (forall n k, c <> SpacedDashes n k) -> placed src (Some (fin l)) false os (push_node c l a).
Proof.
  intros A B L N M. unfold push_node. split; cbn [inlines pending at_ clamp_end start fin].
  - apply Forall_app. split; [exact A|]. constructor; [exact L|constructor].
  - intros n k lc I. apply in_app_or in I. destruct I as [I|[I|[]]]; [exact (B n k lc I)|]. inversion I; subst. destruct (M n k eq_refl).
  - apply slice_nil.
  - change (blen []) with 0. lia.
  - intros q Q. inversion Q. reflexivity.
  - intros f x lc Q. apply app_inj_tail in Q. destruct Q as [_ Q]. inversion Q; subst. destruct (N x eq_refl).
  - intros _. split; [reflexivity|]. intros f x lc Q. apply app_inj_tail in Q. destruct Q as [_ Q]. inversion Q; subst. destruct (N x eq_refl).
  - intros _ x [].
Qed.
Lemma placed_weaken src p q t u os os' a : placed src p t os a -> (forall z, q = Some z -> p = Some z) -> (u = false -> t = false) -> (In TrimEnd os' -> In TrimEnd os) -> placed src q u os' a.
Proof. intros [A B C D E F G H] Q T I. split; auto. Qed.

Lemma run_placed word src os : forall p t a b, reads src p t os -> narrow_white os -> narrow_comments os -> placed src p t os a -> run word os a = Ret b -> Forall (text_located src) (inlines (commit b)).
Proof.
  enough (K : forall p t os, reads src p t os -> forall a b, narrow_white os -> narrow_comments os -> placed src p t os a -> run word os a = Ret b -> Forall (text_located src) (inlines (commit b))).
  { intros p t a b R. exact (K p t os R a b). }
  clear os. assert (NWc : forall o os, narrow_white (o :: os) -> narrow_white os) by (intros o os N I q c Q; apply N; right; assumption).
  assert (NCc : forall o os, narrow_comments (o :: os) -> narrow_comments os) by (intros o os N c I; apply N; right; exact I).
  intros p t os R. induction R; intros a b NW NC P E; cbn [run step] in E.
  - inversion E; subst. apply commit_placed in P. apply P.
  - apply (IHR _ b (NWc _ _ NW) (NCc _ _ NC)) in E; [exact E|]. clear IHR E. destruct P as [A B C D Q F G N]. pose proof (Q p eq_refl) as Q1.
    assert (N' : In TrimEnd os -> narrow (pending a ++ x)).
    { intros I c J W. apply in_app_or in J. destruct J as [J|J]; [exact (N (or_intror I) c J W)|]. apply (NW (or_intror I) (Tok x l) c (or_introl eq_refl)); [apply in_map; exact J|exact W]. }
    unfold push_text_token. rewrite Q1, H, Nat.eqb_refl. cbn [push_token].
    assert (K : extend (at_ a) l = Loc (start (at_ a)) (fin l)) by (unfold extend; f_equal; lia). unfold push_token. rewrite K.
    split; cbn [inlines pending at_ start fin]; try assumption.
    + rewrite utf8_app. apply (slice_cat src (start (at_ a)) (fin (at_ a)) (fin l)); [destruct (at_ a); exact C| |exact D|].
      * rewrite Q1, <- H. destruct l; exact H1.
      * unfold blen in *. lia.
    + rewrite blen_app. lia.
    + intros q Z. inversion Z. reflexivity.
    + discriminate.
  - apply (IHR _ b (NWc _ _ NW) (NCc _ _ NC)) in E; [exact E|]. clear IHR E. destruct P as [A B C D Q F G N]. destruct (G eq_refl) as [G1 G2].
    assert (N' : In TrimEnd os -> narrow x).
    { intros I c J W. apply (NW (or_intror I) (Tok x l) c (or_introl eq_refl)); [apply in_map; exact J|exact W]. }
    unfold push_text_token, commit, push_token. rewrite G1. cbn [inlines pending at_]. rewrite G1 in *. change (blen []) with 0 in D.
    destruct (Nat.eqb_spec (fin (at_ a)) (start l)) as [Z|_].
    + assert (K : extend (at_ a) l = Loc (start l) (fin l)) by (unfold extend; f_equal; lia). rewrite K.
      split; cbn [inlines pending at_ start fin app]; try assumption; [intros q Y; inversion Y; reflexivity| |discriminate].
      intros f y lc Y. destruct (G2 f y lc Y).
    + split; cbn [inlines pending at_ start fin app]; try assumption; [intros q Y; inversion Y; reflexivity| |discriminate].
      intros f y lc Y. destruct (G2 f y lc Y).
  - apply (IHR _ b (NWc _ _ NW) (NCc _ _ NC)) in E; [exact E|]. apply commit_placed in P. destruct P as [[A B _ _ _ _ _ _] _]. apply push_node_placed; try assumption; [exact I|discriminate..].
  - apply (IHR _ b (NWc _ _ NW) (NCc _ _ NC)) in E; [exact E|]. apply commit_placed in P. destruct P as [P _]. eapply placed_weaken; [exact P|auto|auto|intro; right; assumption].
  - apply (IHR _ b (NWc _ _ (NWc _ _ (NWc _ _ NW))) (NCc _ _ (NCc _ _ (NCc _ _ NC)))) in E; [exact E|]. apply commit_placed in P. destruct P as [[A B _ _ _ _ _ _] P].
    assert (K : inlines (commit (finish_macro e (commit a))) = inlines (commit a)) by (unfold commit at 1; cbn [finish_macro pending]; rewrite P; reflexivity).
    apply push_node_placed; [rewrite K; exact A|rewrite K; exact B|exact I|discriminate..].
  - destruct (trim_end a) as [a'|] eqn:H; [|discriminate]. apply (IHR _ b (NWc _ _ NW) (NCc _ _ NC)) in E; [exact E|]. clear IHR E.
    destruct P as [A B C D Q F G N]. destruct (trim_end_narrow a a' (N (or_introl eq_refl)) H) as (w & W & _ & O & L & S1 & S2).
    assert (D2 : fin (at_ a') = start (at_ a') + blen (pending a')) by (rewrite W, blen_app, (blen_one w O) in D; lia).
    split; rewrite ?L; try assumption.
    + rewrite W, utf8_app in C. destruct (at_ a) as [s e], (at_ a') as [s' e']. cbn [start fin] in *. subst s'.
      apply slice_split in C; [|rewrite W, blen_app in D; unfold blen in D; lia]. rewrite D2. apply C.
    + intros q Z. discriminate.
    + intros f x lc Z. rewrite S1. exact (F f x lc Z).
    + discriminate.
    + intros I c J. apply (N (or_introl eq_refl)). rewrite W. apply in_or_app. left. exact J.
  - destruct (recover_custom_line_comment c a) as [a'|] eqn:H; [|discriminate]. apply (IHR _ b (NWc _ _ NW) (NCc _ _ NC)) in E; [exact E|]. clear IHR E.
    apply tuck_spec in H; [|apply NC; left; reflexivity]. destruct H as [->|(f & u & e & PE & O & S & ->)].
    + eapply placed_weaken; [exact P|discriminate|discriminate|intro; right; assumption].
    + destruct P as [A B C D Q F G N]. rewrite PE, blen_app, (blen_one u O) in D. rewrite PE, utf8_app in C. destruct (at_ a) as [s z] eqn:AT. cbn [start fin] in *.
      apply slice_split in C; [|pose proof (blen_one u O) as BU; unfold blen in *; lia]. destruct C as [C1 C2].
      assert (Z : e = s + length (utf8_text f)) by (unfold blen in D; lia). rewrite <- Z in C1, C2.
      assert (PP : placed src None true (Tuck c :: os) (Accum (inlines a) f (Loc s e))).
      { split; cbn [inlines pending at_ start fin]; try assumption; [discriminate|discriminate|]. intros I x J. apply (N I). rewrite PE. apply in_or_app. left. exact J. }
      apply commit_placed in PP. destruct PP as [[A' B' _ _ _ _ _ _] _].
      eapply placed_weaken; [apply push_node_placed; [exact A'|exact B'| |discriminate|discriminate]|discriminate|discriminate|intro I; exact I].
      cbn [text_located fst snd]. rewrite <- S. exact C2.
  - apply (IHR _ b (NWc _ _ NW) (NCc _ _ NC)) in E; [exact E|]. clear IHR E.
    pose proof (pl_pos _ _ _ _ _ P p eq_refl) as Q. apply commit_placed in P. destruct P as [[A B _ _ _ _ _ _] P].
    destruct (joined_spec a) as [l1 J L|f m lc1 lc' lc'' F J].
    + rewrite J. replace (p + 1) with (fin l1) by (rewrite L; cbn [fin]; lia). apply push_node_placed; [exact A|exact B|exact I|discriminate..].
    + destruct (B m NoNewline lc1). rewrite F. apply in_or_app. right. left. reflexivity.
Qed.
