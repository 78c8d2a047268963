From Verif Require Import Base SectionsModel SectionsSpec SectionsProofs TocModel TocSpec.

Lemma on_last_snoc f ns n : on_last f (ns ++ [n]) = match f n with Ret m => Ret (ns ++ [m]) | Panic => Panic end.
Proof.
  induction ns as [|a ns IH]; [reflexivity|]. cbn [app]. change (on_last f (a :: ns ++ [n])) with (match ns ++ [n] with [] => match f a with Ret m => Ret [m] | Panic => Panic end | _ => match on_last f (ns ++ [n]) with Ret r' => Ret (a :: r') | Panic => Panic end end).
  destruct (ns ++ [n]) eqn:E; [destruct ns; discriminate|]. rewrite IH. destruct (f n); reflexivity.
Qed.
Lemma last_node_snoc ns n : last_node (ns ++ [n]) = Some n.
Proof. unfold last_node. rewrite rev_unit. reflexivity. Qed.
Lemma snoc_case (ns : list node) : ns = [] \/ exists r n, ns = r ++ [n].
Proof. destruct ns as [|a ns]; [left; reflexivity|right]. destruct (@exists_last _ (a :: ns)) as (r & n & E); [discriminate|]. eauto. Qed.
Lemma entries_app x y : toc_entries (x ++ y) = toc_entries x ++ toc_entries y.
Proof. apply flat_map_app. Qed.
Lemma push_at_entries k : forall a nm ns ns', push_at k (Node a nm []) ns = Ret ns' -> toc_entries ns' = toc_entries ns ++ [(a, nm)].
Proof.
  induction k as [|k IH]; intros a nm ns ns' E.
  - injection E as <-. rewrite entries_app. reflexivity.
  - cbn [push_at] in E. destruct (snoc_case ns) as [->|(r & [l m cs] & ->)]; [discriminate|]. rewrite on_last_snoc in E.
    destruct (push_at k _ cs) as [cs'|] eqn:P; [|discriminate]. injection E as <-. apply IH in P. rewrite !entries_app, <- app_assoc. f_equal.
    unfold toc_entries in *. cbn [flat_map node_entries]. rewrite !app_nil_r, P. reflexivity.
Qed.
Lemma push_entries t a s n ns ns' : push_toc_node t a s n ns = Ret ns' -> toc_entries ns' = toc_entries ns ++ (if a <=? t then [(a, n)] else []).
Proof.
  unfold push_toc_node. rewrite Nat.leb_antisym. destruct (t <? a); cbn [negb]; [intros [= <-]; rewrite app_nil_r; reflexivity|].
  destruct (last_node ns) as [top|]; [|intros [= <-]; rewrite entries_app; reflexivity].
  destruct ((a <? n_level top) || (a =? 0)); [intros [= <-]; rewrite entries_app; reflexivity|]. apply push_at_entries.
Qed.
Theorem build_entries t es : forall ns ns', build_toc t ns es = Ret ns' -> toc_entries ns' = toc_entries ns ++ asked t es.
Proof.
  induction es as [|e es IH]; intros ns ns' E; [injection E as <-; rewrite app_nil_r; reflexivity|].
  destruct e as [a s n|n|n|n]; cbn [build_toc asked] in *; try (apply IH; exact E).
  destruct (push_toc_node t a s n ns) as [ns1|] eqn:P; [|discriminate]. rewrite (IH _ _ E), (push_entries _ _ _ _ _ _ P), app_assoc. reflexivity.
Qed.

(** ** the default: two levels *)
Definition plain_entry (e : event) : Prop := match e with TocEntry a s _ => s = a \/ s = 1 | _ => True end.
Lemma push_two t a s n ns : t <= 2 -> s = a \/ s = 1 -> exists ns', push_toc_node t a s n ns = Ret ns'.
Proof.
  intros T S0. unfold push_toc_node. destruct (Nat.ltb_spec t a) as [L|L]; [eauto|]. destruct (snoc_case ns) as [->|(r & [l m cs] & ->)]; [cbn; eauto|].
  rewrite last_node_snoc. cbn [n_level n_children]. destruct ((a <? l) || (a =? 0)) eqn:B; [eauto|]. apply orb_false_iff in B as [B1 B2]. apply Nat.ltb_ge in B1. apply Nat.eqb_neq in B2.
  destruct ((l =? 0) && (s =? 2) && negb (existsb (fun n => n_level n =? 1) cs)) eqn:C.
  - apply andb_true_iff in C as [C _]. apply andb_true_iff in C as [C _]. apply Nat.eqb_eq in C as ->. cbn [Nat.sub push_at]. rewrite on_last_snoc. eauto.
  - assert (K : s - l = 0 \/ s - l = 1 \/ (s - l = 2 /\ l = 0 /\ s = 2)) by lia. destruct K as [-> |[-> |(-> & -> & ->)]].
    + cbn. eauto.
    + cbn [push_at]. rewrite on_last_snoc. eauto.
    + cbn [Nat.eqb andb] in C. apply negb_false_iff in C. destruct (snoc_case cs) as [->|(q & [l1 m1 cs1] & ->)]; [discriminate|].
      cbn [push_at]. rewrite on_last_snoc, on_last_snoc. eauto.
Qed.
Theorem build_two t es : t <= 2 -> Forall plain_entry es -> forall ns, exists ns', build_toc t ns es = Ret ns'.
Proof.
  intros T F. induction F as [|e es P F IH]; intro ns; [cbn; eauto|]. destruct e as [a s n|n|n|n]; cbn [build_toc]; try apply IH.
  destruct (push_two t a s n ns T P) as (ns1 & ->). apply IH.
Qed.
(** every event of a document is of that kind *)
Lemma sequence_plain last a s h : s = a \/ s = 1 -> Forall plain_entry (sequence_event last a s h).
Proof. intro P. unfold sequence_event. destruct (last + 1 <? s); (constructor; [|constructor]); [exact I|exact P]. Qed.
Lemma blocks_plain f : forall last s x, blocks f last s = Some x -> Forall plain_entry (evs x).
Proof.
  induction f as [|f IH]; intros last s x; [discriminate|]. cbn [blocks]. destruct (read_lines s) as [[[[|h hs] t] s']|].
  - destruct t as [n|]; [|apply IH]. destruct (blocks f last s') as [y|] eqn:B; [|discriminate]. intros [= <-]. exact (IH _ _ _ B).
  - destruct ((h_level h <=? 1) || (h_level h <=? last)); [intros [= <-]; constructor|].
    destruct (blocks f (h_level h) _) as [y|] eqn:B1; [|discriminate]. destruct (blocks f last (rest y)) as [z|] eqn:B2; [|discriminate]. intros [= <-].
    cbn [evs]. apply Forall_app. split; [apply sequence_plain; auto|]. apply Forall_app. split; [exact (IH _ _ _ B1)|exact (IH _ _ _ B2)].
  - intros [= <-]. constructor.
Qed.
Lemma peeked_plain h c s sem x : sem = h_level h \/ sem = 1 -> peeked_section h c s sem = Some x -> Forall plain_entry (evs x).
Proof.
  unfold peeked_section, all_blocks. intro P. destruct (blocks _ sem _) as [y|] eqn:B; [|discriminate]. intros [= <-]. cbn [evs]. apply Forall_app. split; [apply sequence_plain, P|exact (blocks_plain _ _ _ _ B)].
Qed.
Lemma sections_plain book f : forall s x, sections f book s = Some x -> Forall plain_entry (evs x).
Proof.
  induction f as [|f IH]; intros s x; [discriminate|]. cbn [sections]. destruct (peek_section s) as [[[h c] s']|]; [|intros [= <-]; constructor].
  destruct ((h_level h =? 0) && book); [intros [= <-]; constructor|]. destruct (peeked_section h c s' (h_level h)) as [y|] eqn:B1; [|discriminate].
  destruct (sections f book (rest y)) as [z|] eqn:B2; [|discriminate]. intros [= <-]. cbn [evs]. apply Forall_app. split; [destruct (h_level h =? 0); repeat constructor|].
  apply Forall_app. split; [exact (peeked_plain _ _ _ _ _ (or_introl eq_refl) B1)|exact (IH _ _ B2)].
Qed.
Lemma sectioned_plain book s x : sectioned book s = Some x -> Forall plain_entry (evs x).
Proof.
  unfold sectioned, all_blocks, all_sections. destruct (blocks _ 0 s) as [y|] eqn:B1; [|discriminate]. destruct (sections _ book (rest y)) as [z|] eqn:B2; [|discriminate]. intros [= <-].
  cbn [evs]. apply Forall_app. split; [exact (blocks_plain _ _ _ _ B1)|exact (sections_plain _ _ _ _ B2)].
Qed.
Lemma special_plain f : forall s x, special_sects f s = Some x -> Forall plain_entry (evs x).
Proof.
  induction f as [|f IH]; intros s x; [discriminate|]. cbn [special_sects]. destruct (peek_section s) as [[[h c] s']|]; [|intros [= <-]; constructor].
  destruct (h_special h); [|intros [= <-]; constructor]. destruct (peeked_section h c s' 1) as [y|] eqn:B1; [|discriminate].
  destruct (special_sects f (rest y)) as [z|] eqn:B2; [|discriminate]. intros [= <-]. cbn [evs]. apply Forall_app. split; [exact (peeked_plain _ _ _ _ _ (or_intror eq_refl) B1)|exact (IH _ _ B2)].
Qed.
Lemma parts_plain f : forall s x, parts f s = Some x -> Forall plain_entry (evs x).
Proof.
  induction f as [|f IH]; intros s x; [discriminate|]. cbn [parts]. unfold book_part. destruct (peek_section s) as [[[h c] s']|]; [|intros [= <-]; constructor].
  destruct (negb (h_level h =? 0) || h_special h); [intros [= <-]; constructor|]. destruct (sectioned true _) as [y|] eqn:B1; [|discriminate]. cbn [rest val evs].
  destruct (parts f (rest y)) as [z|] eqn:B2; [|discriminate]. intros [= <-]. cbn [evs app]. constructor; [left; reflexivity|]. apply Forall_app. split; [|exact (IH _ _ B2)].
  apply Forall_app. split; [exact (sectioned_plain _ _ _ B1)|]. destruct (snd (val y)); repeat constructor.
Qed.
Lemma book_plain f : forall s x, parse_book f s = Some (Ret x) -> Forall plain_entry (evs x).
Proof.
  induction f as [|f IH]; intros s x; [discriminate|]. cbn [parse_book]. destruct (all_special s) as [o|] eqn:O; [|discriminate]. pose proof (special_plain _ _ _ O) as FO.
  destruct (at_eof (rest o) && match val o with [] => false | _ => true end); [intros [= <-]; exact FO|].
  destruct (all_parts (rest o)) as [ps|] eqn:PS; [|discriminate]. pose proof (parts_plain _ _ _ PS) as FP. destruct (val ps) as [|p1 ps1].
  - destruct (peek_section (rest o)).
    + destruct (sectioned true (rest o)) as [y|] eqn:B; [|discriminate]. intros [= <-]. cbn [evs]. apply Forall_app. split; [exact FO|exact (sectioned_plain _ _ _ B)].
    + destruct (all_blocks 0 (rest o)) as [y|] eqn:B; [|discriminate]. pose proof (blocks_plain _ _ _ _ B) as FB. destruct (at_eof (rest y)).
      * intros [= <-]. cbn [evs]. apply Forall_app. auto.
      * destruct (parse_book f (rest y)) as [[z|]|] eqn:R; [|discriminate|discriminate]. pose proof (IH _ _ R) as FZ. destruct (val z); [discriminate| |]; intros [= <-]; cbn [evs]; rewrite !Forall_app; auto.
  - destruct (all_special (rest ps)) as [z|] eqn:Z; [|discriminate]. intros [= <-]. cbn [evs]. rewrite !Forall_app. split; [exact FO|]. split; [exact FP|exact (special_plain _ _ _ Z)].
Qed.
Theorem content_plain book cs x : parse_content book cs = Some (Ret x) -> Forall plain_entry (evs x).
Proof.
  unfold parse_content. destruct book; [apply book_plain|]. destruct (sectioned false _) as [y|] eqn:B; [|discriminate]. intros [= <-]. exact (sectioned_plain _ _ _ B).
Qed.

(** ** which entry is below which *)
Inductive Spine : list node -> list entry -> Prop :=
| Sp0 : Spine [] []
| Sp1 ns l m cs sp : Spine cs sp -> Spine (ns ++ [Node l m cs]) ((l, m) :: sp).
Lemma push_at_spine k : forall a nm ns sp, Spine ns sp ->
  (k <= length sp -> exists ns', push_at k (Node a nm []) ns = Ret ns' /\ Spine ns' (firstn k sp ++ [(a, nm)]) /\
     forall o, flat_map (node_owned o) ns' = flat_map (node_owned o) ns ++ [((a, nm), nth k (o :: map Some sp) None)]) /\
  (length sp < k -> push_at k (Node a nm []) ns = Panic).
Proof.
  induction k as [|k IH]; intros a nm ns sp SP.
  - split; [|lia]. intros _. exists (ns ++ [Node a nm []]). split; [reflexivity|]. split; [cbn; constructor; constructor|]. intro o. rewrite flat_map_app. reflexivity.
  - destruct SP as [|ns l m cs sp SP].
    + split; [cbn; lia|]. intros _. reflexivity.
    + destruct (IH a nm cs sp SP) as [G B]. cbn [length]. split.
      * intro L. destruct G as (cs' & E & S' & O); [lia|]. exists (ns ++ [Node l m cs']). cbn [push_at]. rewrite on_last_snoc, E. split; [reflexivity|]. cbn [firstn app]. split; [constructor; exact S'|].
        intro o. rewrite !flat_map_app, <- app_assoc. f_equal. cbn [flat_map node_owned map]. rewrite !app_nil_r, O. reflexivity.
      * intro L. cbn [push_at]. rewrite on_last_snoc, B by lia. reflexivity.
Qed.
(** consecutive levels along the last path, which decides what a new entry goes below *)
Fixpoint climbs (p : nat) (sp : list entry) : Prop := match sp with [] => True | e :: r => fst e = p /\ climbs (S p) r end.
Lemma climbs_firstn sp : forall p k, climbs p sp -> climbs p (firstn k sp).
Proof. induction sp as [|e sp IH]; intros p [|k] C; cbn; auto. destruct C as [C1 C2]. auto. Qed.
Lemma climbs_snoc sp : forall p e, climbs p sp -> fst e = p + length sp -> climbs p (sp ++ [e]).
Proof. induction sp as [|a sp IH]; intros p e C L; cbn in *; [lia|]. destruct C as [C1 C2]. split; [exact C1|]. apply IH; [exact C2|lia]. Qed.
Lemma climbs_ge sp : forall p, climbs p sp -> Forall (fun e => p <= fst e) sp.
Proof. induction sp as [|a sp IH]; intros p C; constructor; destruct C as [C1 C2]; [lia|]. eapply Forall_impl; [|exact (IH _ C2)]. cbn. intros. lia. Qed.
Definition smaller (l : nat) (before : list entry) : option entry := find (fun b => fst b <? l) before.
Lemma smaller_none l es : Forall (fun e => l <= fst e) es -> smaller l es = None.
Proof. unfold smaller. induction 1 as [|e es L F IH]; [reflexivity|]. cbn [find]. replace (fst e <? l) with false by (symmetry; apply Nat.ltb_ge; exact L). exact IH. Qed.
Lemma smaller_app l xs ys : smaller l (xs ++ ys) = match smaller l xs with Some e => Some e | None => smaller l ys end.
Proof. unfold smaller. induction xs as [|x xs IH]; [reflexivity|]. cbn [app find]. destruct (fst x <? l); [reflexivity|exact IH]. Qed.
Lemma climbs_smaller sp : forall p k l, climbs p sp -> k <= length sp -> l <= p + k -> (0 < k -> l = p + k) ->
  smaller l (rev sp) = smaller l (rev (firstn k sp)) /\ smaller l (rev sp) = nth k (None :: map Some sp) None.
Proof.
  intros p k l C K L E. assert (S1 : smaller l (rev sp) = smaller l (rev (firstn k sp))).
  { rewrite <- (firstn_skipn k sp) at 1. rewrite rev_app_distr, smaller_app, smaller_none; [reflexivity|]. apply Forall_rev.
    clear E. revert p k C K L. induction sp as [|a sp IH]; intros p k C K L; [destruct k; constructor|]. destruct k as [|k].
    - cbn [skipn]. eapply Forall_impl; [|exact (climbs_ge _ _ C)]. cbn. intros. lia.
    - cbn [skipn]. destruct C as [_ C]. apply (IH (S p) k C); cbn in K; lia. }
  split; [exact S1|]. rewrite S1. destruct k as [|k]; [reflexivity|]. specialize (E (Nat.lt_0_succ k)). subst l. clear S1 L. cbn [nth].
  assert (G : exists e, nth_error sp k = Some e /\ fst e = p + k /\ firstn (S k) sp = firstn k sp ++ [e]).
  { revert p k C K. induction sp as [|a sp IH]; intros p k C K; [cbn in K; lia|]. destruct C as [C1 C2]. destruct k as [|k].
    - exists a. cbn. split; [reflexivity|]. split; [lia|reflexivity].
    - destruct (IH (S p) k C2) as (e & E1 & E2 & E3); [cbn in K; lia|]. exists e. split; [exact E1|]. split; [lia|]. change (firstn (S (S k)) (a :: sp)) with (a :: firstn (S k) sp). rewrite E3. reflexivity. }
  destruct G as (e & E1 & E2 & ->). rewrite rev_unit. unfold smaller. cbn [find]. replace (fst e <? p + S k) with true by (symmetry; apply Nat.ltb_lt; lia).
  symmetry. apply nth_error_nth. rewrite nth_error_map, E1. reflexivity.
Qed.
Lemma nearest_snoc xs : forall before e, nearest_smaller before (xs ++ [e]) = nearest_smaller before xs ++ [(e, smaller (fst e) (rev xs ++ before))].
Proof. induction xs as [|x xs IH]; intros before e; [reflexivity|]. cbn [app nearest_smaller rev]. rewrite IH, <- app_assoc. reflexivity. Qed.
(** [es] are the entries so far, [sp] the last path *)
Definition good (ns : list node) (sp es : list entry) : Prop :=
  Spine ns sp /\ climbs (match sp with e :: _ => fst e | [] => 0 end) sp /\ toc_owned ns = nearest_smaller [] es /\
  (forall l, smaller l (rev es) = smaller l (rev sp)) /\ hd_error (rev sp) = hd_error (rev es).
Lemma good_start : good [] [] [].
Proof. split; [constructor|]. split; [exact I|]. split; [reflexivity|]. split; reflexivity. Qed.
Lemma spine_last ns sp : Spine ns sp -> match sp with [] => ns = [] | e :: r => exists q cs, ns = q ++ [Node (fst e) (snd e) cs] /\ Spine cs r end.
Proof. intro S0. destruct S0; [reflexivity|]. eauto. Qed.
Lemma good_step t a nm ns sp es : good ns sp es -> a <= t ->
  (match rev es with p :: _ => a <= S (fst p) | [] => True end -> exists ns' sp', push_toc_node t a a nm ns = Ret ns' /\ good ns' sp' (es ++ [(a, nm)])) /\
  (match rev es with p :: _ => S (fst p) < a /\ ~ (fst p = 0 /\ a = 2) | [] => False end -> push_toc_node t a a nm ns = Panic).
Proof.
  intros (SP & CL & OW & SM & HD) T. unfold push_toc_node. replace (t <? a) with false by (symmetry; apply Nat.ltb_ge; exact T).
  destruct sp as [|e0 r].
  - pose proof (spine_last _ _ SP) as ->. cbn [last_node rev hd_error]. destruct (rev es) as [|x xs] eqn:ES; [|discriminate].
    assert (es = []) by (rewrite <- (rev_involutive es), ES; reflexivity). subst es. split; [|contradiction]. intros _. exists [Node a nm []], [(a, nm)]. split; [reflexivity|].
    split; [exact (Sp1 [] a nm [] [] Sp0)|]. split; [cbn; auto|]. split; [reflexivity|]. split; reflexivity.
  - destruct (spine_last _ _ SP) as (q & cs & -> & SC). rewrite last_node_snoc. cbn [n_level n_children].
    assert (PREV : exists p ps, rev es = p :: ps /\ fst p = fst e0 + length r).
    { assert (LS : exists f, hd_error (rev (e0 :: r)) = Some f /\ fst f = fst e0 + length r).
      { clear - CL. revert e0 CL. induction r as [|f r IH]; intros e0 CL; [exists e0; cbn; split; [reflexivity|lia]|].
        cbn [climbs] in CL. destruct CL as (_ & C2 & C3). destruct (IH f) as (g & G1 & G2); [cbn [climbs]; rewrite C2; auto|]. exists g. split; [|cbn [length]; lia].
        cbn [rev] in *. destruct (rev r ++ [f]) as [|z zs] eqn:Z; [destruct (rev r); discriminate|]. exact G1. }
      destruct LS as (f & F1 & F2). rewrite HD in F1. destruct (rev es) as [|p ps]; [discriminate|]. injection F1 as ->. eauto. }
    destruct PREV as (p & ps & RE & PL). rewrite RE.
    (* the number of steps down *)
    set (k := a - fst e0). assert (STEP : k <= length (e0 :: r) -> exists ns' sp', push_at k (Node a nm []) (q ++ [Node (fst e0) (snd e0) cs]) = Ret ns' /\ good ns' sp' (es ++ [(a, nm)])).
    { intro K. destruct (push_at_spine k a nm _ _ SP) as [G _]. destruct (G K) as (ns' & E & S' & O). exists ns', (firstn k (e0 :: r) ++ [(a, nm)]). split; [exact E|].
      assert (LA : a <= fst e0 + k) by (unfold k; lia). assert (LK : 0 < k -> a = fst e0 + k) by (unfold k; lia).
      destruct (climbs_smaller (e0 :: r) (fst e0) k a CL K LA LK) as [Q1 Q2].
      split; [exact S'|]. split; [|split; [|split]].
      - destruct k as [|k'] eqn:KE; [cbn; auto|]. cbn [firstn app]. apply (climbs_snoc (e0 :: firstn k' r) (fst e0) (a, nm)); [exact (climbs_firstn (e0 :: r) (fst e0) (S k') CL)|].
        cbn [length fst] in *. rewrite firstn_length_le by lia. apply LK. lia.
      - unfold toc_owned in *. rewrite O, OW, nearest_snoc, app_nil_r. cbn [fst]. rewrite SM, Q2. reflexivity.
      - intro l. rewrite !rev_app_distr. cbn [rev app]. unfold smaller. cbn [find]. destruct (Nat.ltb_spec (fst (a, nm)) l) as [LT|GE]; [reflexivity|]. cbn [fst] in GE.
        change (smaller l (rev es) = smaller l (rev (firstn k (e0 :: r)))). rewrite SM.
        rewrite <- (firstn_skipn k (e0 :: r)) at 1. rewrite rev_app_distr, smaller_app, smaller_none; [reflexivity|]. apply Forall_rev.
        clear - CL GE LA. clearbody k. revert CL LA. generalize (fst e0). generalize (e0 :: r). intros sp. revert k. induction sp as [|b sp IH]; intros k pp C L; [destruct k; constructor|]. destruct k as [|k].
        + cbn [skipn]. eapply Forall_impl; [|exact (climbs_ge _ _ C)]. cbn. intros. lia.
        + cbn [skipn]. destruct C as [_ C]. apply (IH k (S pp) C). lia.
      - rewrite !rev_app_distr. reflexivity. }
    split.
    + intro J. assert (K : k <= length (e0 :: r)) by (unfold k; cbn [length]; lia).
      destruct ((a <? fst e0) || (a =? 0)) eqn:B.
      * assert (K0 : k = 0) by (unfold k; apply orb_true_iff in B as [B|B]; [apply Nat.ltb_lt in B|apply Nat.eqb_eq in B]; lia). destruct (STEP K) as (ns' & sp' & E & G). rewrite K0 in E. exists ns', sp'. split; [exact E|exact G].
      * apply orb_false_iff in B as [B1 B2]. apply Nat.ltb_ge in B1. apply Nat.eqb_neq in B2.
        destruct ((fst e0 =? 0) && (a =? 2) && negb (existsb (fun n => n_level n =? 1) cs)) eqn:C; [|exact (STEP K)]. exfalso.
        apply andb_true_iff in C as [C C3]. apply andb_true_iff in C as [C1 C2]. apply Nat.eqb_eq in C1, C2. apply negb_true_iff in C3.
        destruct r as [|e1 r]; [cbn [length] in PL; lia|]. destruct (spine_last _ _ SC) as (q1 & cs1 & -> & _). cbn [climbs] in CL. destruct CL as (_ & CL1 & _).
        rewrite existsb_app in C3. apply orb_false_iff in C3 as [_ C3]. cbn [existsb n_level] in C3. rewrite CL1, C1 in C3. discriminate.
    + intros [J Z]. assert (K : length (e0 :: r) < k) by (unfold k; cbn [length]; lia).
      replace ((a <? fst e0) || (a =? 0)) with false by (symmetry; apply orb_false_iff; split; [apply Nat.ltb_ge|apply Nat.eqb_neq]; lia).
      destruct ((fst e0 =? 0) && (a =? 2) && negb (existsb (fun n => n_level n =? 1) cs)) eqn:C; [|exact (proj2 (push_at_spine k a nm _ _ SP) K)]. exfalso.
      apply andb_true_iff in C as [C C3]. apply andb_true_iff in C as [C1 C2]. apply Nat.eqb_eq in C1, C2. cbn [length] in K. unfold k in K. apply Z. lia.
Qed.
Definition as_event (e : entry) : event := TocEntry (fst e) (fst e) (snd e).
Lemma no_jumps_app xs e : no_jumps (xs ++ [e]) <-> no_jumps xs /\ match rev xs with p :: _ => fst e <= S (fst p) | [] => True end.
Proof.
  induction xs as [|x xs IH]; [cbn; tauto|]. destruct xs as [|y xs]; [cbn; tauto|]. change ((x :: y :: xs) ++ [e]) with (x :: y :: xs ++ [e]).
  cbn [no_jumps]. change (y :: xs ++ [e]) with ((y :: xs) ++ [e]). rewrite IH.
  assert (R : hd_error (rev (x :: y :: xs)) = hd_error (rev (y :: xs))). { cbn [rev]. destruct (rev xs ++ [y]) eqn:Q; [destruct (rev xs); discriminate|reflexivity]. }
  destruct (rev (x :: y :: xs)) as [|p ps]; destruct (rev (y :: xs)) as [|p' ps']; try discriminate; [tauto|]. injection R as ->. tauto.
Qed.
Lemma build_app t xs : forall ys ns, build_toc t ns (xs ++ ys) = match build_toc t ns xs with Ret ns' => build_toc t ns' ys | Panic => Panic end.
Proof. induction xs as [|x xs IH]; intros ys ns; [reflexivity|]. destruct x as [a s n|n|n|n]; cbn [app build_toc]; try apply IH. destruct (push_toc_node t a s n ns); [apply IH|reflexivity]. Qed.
Theorem build_good t (es : list entry) : Forall (fun e : entry => fst e <= t) es -> no_jumps es -> exists ns sp, build_toc t [] (map as_event es) = Ret ns /\ good ns sp es.
Proof.
  induction es as [|e es IH] using rev_ind; intros F J; [exists [], []; split; [reflexivity|exact good_start]|].
  apply Forall_app in F as [F F1]. apply no_jumps_app in J as [J J1]. destruct (IH F J) as (ns & sp & E & G). inversion F1 as [|? ? L _]; subst.
  destruct (proj1 (good_step t (fst e) (snd e) ns sp es G L) J1) as (ns' & sp' & P & G'). exists ns', sp'. rewrite map_app, build_app, E. cbn [map build_toc as_event]. unfold as_event. rewrite P. split; [reflexivity|].
  destruct e as [a n]. exact G'.
Qed.
Theorem build_jump t (es : list entry) (p e : entry) : Forall (fun e : entry => fst e <= t) (es ++ [p; e]) -> no_jumps (es ++ [p]) -> S (fst p) < fst e -> ~ (fst p = 0 /\ fst e = 2) ->
  build_toc t [] (map as_event (es ++ [p; e])) = Panic.
Proof.
  intros F J L Z. change [p; e] with ([p] ++ [e]) in *. rewrite app_assoc in *. apply Forall_app in F as [F F1]. destruct (build_good t _ F J) as (ns & sp & E & G). inversion F1 as [|? ? LT _]; subst.
  rewrite map_app, build_app, E. cbn [map build_toc as_event]. unfold as_event. rewrite (proj2 (good_step t (fst e) (snd e) ns sp _ G LT)); [reflexivity|]. rewrite rev_unit. auto.
Qed.

(** ** documents *)
Definition same_level (e : event) : Prop := match e with TocEntry a s _ => s = a | _ => True end.
Lemma build_asked t es : Forall same_level es -> forall ns, build_toc t ns es = build_toc t ns (map as_event (asked t es)).
Proof.
  induction 1 as [|e es P F IH]; intro ns; [reflexivity|]. destruct e as [a s n|n|n|n]; cbn [build_toc asked]; try apply IH. cbn in P. subst s.
  destruct (Nat.leb_spec a t) as [L|L].
  - cbn [map app build_toc as_event]. unfold as_event at 1. cbn [fst snd]. destruct (push_toc_node t a a n ns); [apply IH|reflexivity].
  - cbn [app]. unfold push_toc_node. replace (t <? a) with true by (symmetry; apply Nat.ltb_lt; exact L). apply IH.
Qed.
Lemma asked_app t x y : asked t (x ++ y) = asked t x ++ asked t y.
Proof. induction x as [|e x IH]; [reflexivity|]. destruct e; cbn [app asked]; rewrite ?IH, ?app_assoc; reflexivity. Qed.
Lemma asked_expected t is : forall P, asked t (expected_events P is) = shown t P is.
Proof.
  induction is as [|[h|n] is IH]; intro P; [reflexivity| |apply IH]. cbn [expected_events shown]. rewrite !asked_app, IH.
  replace (asked t (if h_level h =? 0 then [LevelZero (h_name h)] else [])) with (@nil entry) by (destruct (h_level h =? 0); reflexivity). cbn [app]. f_equal.
  rewrite (Nat.leb_antisym (level_of (parent_of P (h_level h)) + 1) (h_level h)). destruct (level_of (parent_of P (h_level h)) + 1 <? h_level h); cbn [negb]; rewrite ?andb_false_r, ?andb_true_r; [reflexivity|].
  cbn [asked]. rewrite app_nil_r. reflexivity.
Qed.
Lemma expected_same is : forall P, Forall same_level (expected_events P is).
Proof.
  induction is as [|[h|n] is IH]; intro P; [constructor| |apply IH]. cbn [expected_events]. rewrite !Forall_app. split; [destruct (h_level h =? 0); repeat constructor|].
  split; [|apply IH]. destruct (_ <? _); repeat constructor.
Qed.
Lemma shown_levels t is : forall P, Forall (fun e : entry => fst e <= t) (shown t P is).
Proof.
  induction is as [|[h|n] is IH]; intro P; [constructor| |apply IH]. cbn [shown]. apply Forall_app. split; [|apply IH].
  destruct (Nat.leb_spec (h_level h) t); [|constructor]. cbn [andb]. destruct (_ <=? _); repeat constructor. exact H.
Qed.
Definition reach (t : nat) (P : list head) (E : list entry) : Prop :=
  forall l p, 2 <= l <= t -> find (fun h => h_level h <? l) P = Some p -> l <= h_level p + 1 -> match E with e :: _ => l <= S (fst e) | [] => False end.
Lemma shown_no_jumps t is : forall P E, reach t P E -> in_sequence_above t P is ->
  match E with e :: _ => no_jumps (e :: shown t P is) | [] => no_jumps (shown t P is) end.
Proof.
  induction is as [|[h|n] is IH]; intros P E R Q.
  - destruct E; exact I.
  - cbn [shown in_sequence_above] in *. destruct Q as [Q1 Q2]. set (b := (h_level h <=? t) && (h_level h <=? level_of (parent_of P (h_level h)) + 1)).
    assert (R' : reach t (h :: P) (if b then (h_level h, h_name h) :: E else E)).
    { intros l p L F LE. cbn [find] in F. destruct (Nat.ltb_spec (h_level h) l) as [LT|GE].
      - injection F as <-. assert (b = true) as ->; [|cbn [fst]; lia]. unfold b. apply andb_true_iff. split; [apply Nat.leb_le; lia|]. apply Nat.leb_le.
        assert (~ out_of_sequence P h) as O by (apply Q1; lia). unfold out_of_sequence in O. lia.
      - specialize (R l p L F LE). destruct b; [cbn [fst]; lia|exact R]. }
    specialize (IH (h :: P) _ R' Q2). fold b. destruct b eqn:B; cbn [app]; [|exact IH]. destruct E as [|e E]; [exact IH|].
    change (no_jumps (e :: (h_level h, h_name h) :: shown t (h :: P) is)) with (h_level h <= S (fst e) /\ no_jumps ((h_level h, h_name h) :: shown t (h :: P) is)). split; [|exact IH].
    subst b. apply andb_true_iff in B as [B1 B2]. apply Nat.leb_le in B1, B2. destruct (Nat.le_gt_cases (h_level h) 1); [lia|]. rewrite parent_ge in B2 by lia.
    destruct (find _ P) as [p|] eqn:F; cbn [level_of] in B2; [|lia]. exact (R (h_level h) p (conj H B1) F B2).
  - exact (IH P E R Q).
Qed.
Lemma two_levels t is : t <= 2 -> forall P, in_sequence_above t P is.
Proof.
  intro T. induction is as [|[h|n] is IH]; intro P; [exact I| |apply IH]. split; [|apply IH]. intros L. unfold out_of_sequence. lia.
Qed.
Lemma shown_all t is : forall P, in_sequence_above (S t) P is -> shown t P is = headings_to t is.
Proof.
  unfold headings_to. induction is as [|[h|n] is IH]; intros P Q; [reflexivity| |exact (IH P Q)]. cbn [shown heads filter in_sequence_above] in *. destruct Q as [Q1 Q2]. rewrite (IH _ Q2).
  destruct (Nat.leb_spec (h_level h) t) as [L|L]; [|reflexivity]. cbn [andb]. unfold out_of_sequence in Q1.
  replace (h_level h <=? level_of (parent_of P (h_level h)) + 1) with true by (symmetry; apply Nat.leb_le; lia). reflexivity.
Qed.
Lemma asked_events t (es : list entry) : Forall (fun e : entry => fst e <= t) es -> asked t (map as_event es) = es.
Proof.
  induction es as [|[l n] es IH]; intro F; [reflexivity|]. inversion F as [|? ? L F']; subst. change (asked t (map as_event ((l, n) :: es))) with ((if l <=? t then [(l, n)] else []) ++ asked t (map as_event es)).
  rewrite (IH F'). cbn [fst] in L. replace (l <=? t) with true by (symmetry; apply Nat.leb_le; exact L). reflexivity.
Qed.
(** any events that ask for the shown headings of a document *)
Theorem toc_of_events t es is : Forall same_level es -> asked t es = shown t [] is -> in_sequence_above t [] is ->
  exists ns, build_toc t [] es = Ret ns /\ toc_entries ns = shown t [] is /\ toc_owned ns = nearest_smaller [] (shown t [] is).
Proof.
  intros F A Q. rewrite (build_asked t es F), A.
  destruct (build_good t (shown t [] is) (shown_levels t is [])) as (ns & sp & E & G).
  { apply (shown_no_jumps t is [] []); [|exact Q]. intros l p _ FD. discriminate. }
  exists ns. split; [exact E|]. split; [|apply G].
  rewrite (build_entries _ _ _ _ E). exact (asked_events t _ (shown_levels t is [])).
Qed.

(** ** books without special sections ask for the same *)
Lemma start_ok P s : P = [] \/ stopped 1 s -> next_ok P None 0 s.
Proof.
  intros [->|S0]; [apply owner_next; [left; auto|reflexivity]|]. unfold next_ok. pose proof (stopped_items _ _ S0) as SI. destruct (input_items s) as [|[h|n] r]; [exact I| |contradiction]. lia.
Qed.
Lemma sectioned_events book s x P : sectioned book s = Some x -> P = [] \/ stopped 1 s \/ (exists h P', P = h :: P' /\ h_level h = 0) ->
  evs x = expected_events P (blocks_items (fst (val x)) ++ blocks_items (snd (val x))).
Proof.
  unfold sectioned, all_blocks, all_sections. intros E ST. destruct (blocks _ 0 s) as [y|] eqn:B1; [|discriminate]. destruct (sections _ book (rest y)) as [z|] eqn:B2; [|discriminate]. injection E as <-. cbn [evs val fst snd].
  assert (O : exists o, owner_of 0 o /\ next_ok P o 0 s).
  { destruct ST as [->|[S0|(h & P' & -> & L)]]; [exists None; split; [left; auto|apply start_ok; auto]|exists None; split; [left; auto|apply start_ok; auto]|].
    exists (Some h). assert (OW : owner_of 0 (Some h)) by (right; eauto). split; [exact OW|apply owner_next; [exact OW|reflexivity]]. }
  destruct O as (o & OW & NX). destruct (blocks_owner _ _ _ _ P o B1 OW NX) as (_ & E1 & _ & S1).
  assert (S2 : stopped 1 (rest y)) by (unfold stopped in *; destruct (read_lines (rest y)) as [[[[|h1 hs1] t1] s1]|]; try exact S1; lia).
  destruct (sections_owner _ _ _ _ (rev (heads (blocks_items (val y))) ++ P) B2 S2) as [_ E2]. rewrite events_app, E1, E2. reflexivity.
Qed.
Lemma special_off s x : all_special s = Some x -> no_special (input_items s) -> x = mkRes [] s [].
Proof.
  unfold all_special. cbn [special_sects]. destruct (peek_section s) as [[[h c] s']|] eqn:PK; [|intros [= <-] _; reflexivity].
  intros E N. rewrite (N h) in E; [injection E as <-; reflexivity|]. destruct (peek_items _ _ _ _ PK) as (-> & _). left. reflexivity.
Qed.
Lemma parts_events t f : forall s x P, parts f s = Some x -> asked t (evs x) = asked t (expected_events P (flat_map part_items (val x))).
Proof.
  induction f as [|f IH]; intros s x P; [discriminate|]. cbn [parts]. unfold book_part. destruct (peek_section s) as [[[h c] s']|] eqn:PK; [|intros [= <-]; reflexivity].
  destruct (negb (h_level h =? 0) || h_special h) eqn:B; [intros [= <-]; reflexivity|]. apply orb_false_iff in B as [B _]. apply negb_false_iff, Nat.eqb_eq in B.
  destruct (sectioned true (restore_lines c s')) as [y|] eqn:Y; [|discriminate]. cbn [rest val evs]. destruct (parts f (rest y)) as [z|] eqn:Z; [|discriminate]. intros [= <-]. cbn [evs val flat_map part_items].
  rewrite app_comm_cons, asked_app, events_app, asked_app. rewrite (IH _ _ (rev (heads (IHead h :: blocks_items (fst (val y)) ++ blocks_items (snd (val y)))) ++ P) Z). f_equal.
  rewrite (sectioned_events true _ _ (h :: P) Y) by (right; right; eauto). cbn [expected_events]. rewrite B. cbn [parent_of Nat.leb level_of Nat.add Nat.ltb Nat.eqb app asked].
  rewrite !asked_app. cbn [asked]. replace (asked t match snd (val y) with [] => [EmptyPart (h_name h)] | _ :: _ => [] end) with (@nil entry) by (destruct (snd (val y)); reflexivity). rewrite app_nil_r. reflexivity.
Qed.
Lemma book_events t f : forall s x P, parse_book f s = Some (Ret x) -> no_special (input_items s) -> P = [] \/ stopped 1 s -> asked t (evs x) = asked t (expected_events P (content_items (val x))).
Proof.
  induction f as [|f IH]; intros s x P; [discriminate|]. cbn [parse_book]. intros E N ST. destruct (all_special s) as [o|] eqn:O; [|discriminate]. pose proof (special_off _ _ O N) as ->. cbn [rest val evs] in *. rewrite andb_false_r in E.
  destruct (parts_total (S (left s)) s (le_n _)) as (ps & PS & _ & IP & _). unfold all_parts in E. rewrite PS in E. destruct (val ps) as [|p1 ps1] eqn:VP.
  - destruct (peek_section s) eqn:PK.
    + destruct (sectioned true s) as [y|] eqn:B; [|discriminate]. injection E as <-. cbn [evs val content_items app]. rewrite (sectioned_events _ _ _ P B); [reflexivity|]. tauto.
    + destruct (all_blocks_total 0 s) as (y & Y & _ & IY & S1). rewrite Y in E. unfold all_blocks in Y.
      destruct (blocks_owner _ _ _ _ P None Y (or_introl (conj eq_refl eq_refl)) (start_ok P s ST)) as (_ & E1 & _ & _).
      assert (S2 : stopped 1 (rest y)) by (unfold stopped in *; destruct (read_lines (rest y)) as [[[[|h1 hs1] t1] s1]|]; try exact S1; lia).
      destruct (at_eof (rest y)).
      * injection E as <-. cbn [evs val content_items app]. rewrite E1. reflexivity.
      * destruct (parse_book f (rest y)) as [[z|]|] eqn:R; [|discriminate|discriminate].
        assert (N2 : no_special (input_items (rest y))) by (intros h I; apply N; rewrite IY; apply in_or_app; right; exact I).
        pose proof (IH _ _ (rev (heads (blocks_items (val y))) ++ P) R N2 (or_intror S2)) as EZ.
        destruct (val z) as [|p q|p a q w]; [discriminate| |]; injection E as <-; cbn [evs val content_items app] in *; rewrite asked_app, EZ, E1, items_app, <- !app_assoc, (events_app (blocks_items (val y))), asked_app; reflexivity.
  - destruct (all_special (rest ps)) as [z|] eqn:Z; [|discriminate]. injection E as <-. cbn [evs val content_items app blocks_items flat_map].
    assert (N2 : no_special (input_items (rest ps))) by (intros h I; apply N; rewrite IP; apply in_or_app; right; exact I). rewrite (special_off _ _ Z N2). cbn [evs val flat_map]. rewrite !app_nil_r.
    rewrite (parts_events t _ _ _ P PS), VP. reflexivity.
Qed.
Lemma parts_same f : forall s x, parts f s = Some x -> Forall same_level (evs x).
Proof.
  induction f as [|f IH]; intros s x; [discriminate|]. cbn [parts]. unfold book_part. destruct (peek_section s) as [[[h c] s']|]; [|intros [= <-]; constructor].
  destruct (negb (h_level h =? 0) || h_special h); [intros [= <-]; constructor|]. destruct (sectioned true (restore_lines c s')) as [y|] eqn:B1; [|discriminate]. cbn [rest val evs].
  destruct (parts f (rest y)) as [z|] eqn:B2; [|discriminate]. intros [= <-]. cbn [evs app]. constructor; [reflexivity|]. apply Forall_app. split; [|exact (IH _ _ B2)].
  apply Forall_app. split; [|destruct (snd (val y)); repeat constructor].
  rewrite (sectioned_events _ _ _ [mkHead 0 false 0] B1); [apply expected_same|]. right. right. exists (mkHead 0 false 0), []. auto.
Qed.
Lemma book_same f : forall s x, parse_book f s = Some (Ret x) -> no_special (input_items s) -> Forall same_level (evs x).
Proof.
  induction f as [|f IH]; intros s x; [discriminate|]. cbn [parse_book]. intros E N. destruct (all_special s) as [o|] eqn:O; [|discriminate]. pose proof (special_off _ _ O N) as ->. cbn [rest val evs] in *. rewrite andb_false_r in E.
  destruct (parts_total (S (left s)) s (le_n _)) as (ps & PS & _ & IP & _). unfold all_parts in E. rewrite PS in E. destruct (val ps) as [|p1 ps1] eqn:VP.
  - destruct (peek_section s) eqn:PK.
    + destruct (sectioned true s) as [y|] eqn:B; [|discriminate]. injection E as <-. cbn [evs app]. rewrite (sectioned_events _ _ _ [] B); [apply expected_same|]. tauto.
    + destruct (all_blocks_total 0 s) as (y & Y & _ & IY & S1). rewrite Y in E. unfold all_blocks in Y.
      destruct (blocks_owner _ _ _ _ [] None Y (or_introl (conj eq_refl eq_refl)) (start_ok [] s (or_introl eq_refl))) as (_ & E1 & _ & _).
      destruct (at_eof (rest y)).
      * injection E as <-. cbn [evs app]. rewrite E1. apply expected_same.
      * destruct (parse_book f (rest y)) as [[z|]|] eqn:R; [|discriminate|discriminate].
        assert (N2 : no_special (input_items (rest y))) by (intros h I; apply N; rewrite IY; apply in_or_app; right; exact I). pose proof (IH _ _ R N2) as FZ.
        destruct (val z) as [|p q|p a q w]; [discriminate| |]; injection E as <-; cbn [evs app]; apply Forall_app; (split; [rewrite E1; apply expected_same|exact FZ]).
  - destruct (all_special (rest ps)) as [z|] eqn:Z; [|discriminate]. injection E as <-. cbn [evs app].
    assert (N2 : no_special (input_items (rest ps))) by (intros h I; apply N; rewrite IP; apply in_or_app; right; exact I). rewrite (special_off _ _ Z N2). cbn [evs]. rewrite app_nil_r. exact (parts_same _ _ _ PS).
Qed.
(** what a document asks for: articles always, books when they have no special sections *)
Theorem document_events t book cs x : parse_content book cs = Some (Ret x) -> book = false \/ no_special (document_items cs) ->
  Forall same_level (evs x) /\ asked t (evs x) = shown t [] (content_items (val x)).
Proof.
  intros E B. rewrite <- asked_expected. destruct book.
  - destruct B as [B|N]; [discriminate|]. unfold parse_content in E. split; [exact (book_same _ _ _ E N)|exact (book_events t _ _ _ [] E N (or_introl eq_refl))].
  - destruct (article_structure cs x E) as [_ EV]. destruct (parse_content_total false cs) as (y & Y & I & R). rewrite E in Y. injection Y as <-. rewrite (R eq_refl), app_nil_r in I. rewrite EV, <- I. split; [apply expected_same|reflexivity].
Qed.
