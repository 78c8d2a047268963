(** Proofs for C65. *)
From Verif Require Import Base PathModel XrefModel XrefSpec.
From Coq Require Import Permutation Lia.
Open Scope list_scope.

Lemma bytes_eqb_neq x y : bytes_eqb x y = false <-> x <> y.
Proof. rewrite <- not_true_iff_false, bytes_eqb_eq. tauto. Qed.

(** ** Maps *)
Lemma in_insert {V} k (v : V) m k' v' : In (k', v') (insert k v m) <-> (k' = k /\ v' = v) \/ (k' <> k /\ In (k', v') m).
Proof.
  unfold insert. rewrite in_app_iff, filter_In. cbn [fst In]. rewrite negb_true_iff, bytes_eqb_neq. split.
  - intros [[H N]|[E|[]]]; [tauto|]. injection E as <- <-. tauto.
  - intros [[-> ->]|[N H]]; tauto.
Qed.
Lemma keys_insert {V} k (v : V) m : NoDup (map fst m) -> NoDup (map fst (insert k v m)).
Proof.
  intros N. unfold insert. rewrite map_app. cbn [map fst]. apply (Permutation_NoDup (Permutation_app_comm [k] _)). cbn [app]. constructor.
  - rewrite in_map_iff. intros ([k' v'] & E & H). cbn [fst] in E. subst k'. apply filter_In in H. destruct H as [_ H]. cbn [fst] in H. now rewrite bytes_eqb_refl in H.
  - clear v. induction m as [|[k' v'] m IH]; [constructor|]. cbn [map fst] in N. apply NoDup_cons_iff in N. destruct N as [N1 N2]. cbn [filter fst].
    destruct (bytes_eqb k' k); cbn [negb]; [now apply IH|]. cbn [map fst]. constructor; [|now apply IH]. intros H. apply N1. apply in_map_iff in H. destruct H as (e & E & H).
    apply filter_In in H. apply in_map_iff. exists e. tauto.
Qed.
Lemma find_key_in {V} k (m : list (bytes * V)) v : NoDup (map fst m) -> (find_key k m = Some v <-> In (k, v) m).
Proof.
  induction m as [|[k' v'] m IH]; intros N; cbn [find_key]; [now split|]. cbn [map fst] in N. apply NoDup_cons_iff in N. destruct N as [N1 N2]. destruct (bytes_eqb k' k) eqn:E.
  - apply bytes_eqb_eq in E. subst k'. split.
    + intros H. injection H as ->. now left.
    + intros [H|H]; [now injection H as ->|]. destruct N1. apply in_map_iff. now exists (k, v).
  - rewrite IH by exact N2. apply bytes_eqb_neq in E. split; [now right|]. intros [H|H]; [congruence|exact H].
Qed.
Lemma find_insert {V} k (v : V) m k' : NoDup (map fst m) -> find_key k' (insert k v m) = if bytes_eqb k' k then Some v else find_key k' m.
Proof.
  intros N. pose proof (keys_insert k v m N) as N'. destruct (bytes_eqb k' k) eqn:E.
  - apply bytes_eqb_eq in E. subst k'. apply find_key_in; [exact N'|]. apply in_insert. now left.
  - apply bytes_eqb_neq in E. destruct (find_key k' m) as [w|] eqn:F.
    + apply find_key_in; [exact N'|]. apply in_insert. right. split; [exact E|]. now apply find_key_in in F.
    + destruct (find_key k' (insert k v m)) as [w|] eqn:G; [|reflexivity]. apply find_key_in in G; [|exact N']. apply in_insert in G. destruct G as [[G _]|[_ G]]; [contradiction|].
      apply find_key_in in G; [congruence|exact N].
Qed.

(** ** References *)
Lemma collect_app l r : collect (l ++ [r]) = push_xref r (collect l).
Proof. unfold collect. now rewrite fold_left_app. Qed.
Lemma collect_keys l : NoDup (map fst (collect l)).
Proof. induction l as [|r l IH] using rev_ind; [constructor|]. rewrite collect_app. now apply keys_insert. Qed.
Lemma in_collect l k v : In (k, v) (collect l) <-> exists before r after, l = before ++ r :: after /\ key_of r = (k, v) /\ forall r', In r' after -> fst (key_of r') <> k.
Proof.
  induction l as [|r l IH] using rev_ind.
  - split; [intros []|]. intros (bf & r0 & af & E & _). destruct bf; discriminate E.
  - rewrite collect_app. unfold push_xref. rewrite in_insert, IH. split.
    + intros [[-> ->]|[N (before & r' & after & -> & K & A)]].
      * exists l, r, []. split; [reflexivity|]. split; [now destruct (key_of r)|]. intros r' [].
      * exists before, r', (after ++ [r]). split; [now rewrite <- app_assoc|]. split; [exact K|]. intros x H. apply in_app_iff in H. destruct H as [H|[<-|[]]]; [now apply A|]. intros H. now apply N.
    + intros (before & r' & after & E & K & A). destruct after as [|x after] using rev_ind.
      * apply app_inj_tail in E. destruct E as [-> ->]. left. rewrite K. now split.
      * clear IHafter. change (r' :: after ++ [x]) with ((r' :: after) ++ [x]) in E. rewrite app_assoc in E. apply app_inj_tail in E. destruct E as [-> ->]. right. split.
        { intros ->. apply (A x); [apply in_or_app; right; now left|reflexivity]. }
        exists before, r', after. split; [reflexivity|]. split; [exact K|]. intros y H. apply A. apply in_or_app. now left.
Qed.
Lemma no_hash_head id : ~ In "#"%char id -> match id with "#"%char :: _ => False | _ => True end.
Proof. destruct id as [|c id]; [trivial|]. intros N. destruct (Ascii.ascii_dec c "#") as [->|C]; [now destruct N; left|]. now repeat (destruct c as [[] [] [] [] [] [] [] []]; try exact I). Qed.
Lemma split_hash_app p i : ~ In "#"%char p -> split_hash (p ++ "#"%char :: i) = Some (p, i).
Proof.
  induction p as [|c p IH]; intros N; [reflexivity|]. cbn [app split_hash]. destruct (Ascii.eqb c "#") eqn:E; [apply Ascii.eqb_eq in E; subst; now destruct N; left|].
  rewrite IH; [reflexivity|]. intros H. apply N. now right.
Qed.
Lemma split_hash_none p : ~ In "#"%char p -> split_hash p = None.
Proof.
  induction p as [|c p IH]; intros N; [reflexivity|]. cbn [split_hash]. destruct (Ascii.eqb c "#") eqn:E; [apply Ascii.eqb_eq in E; subst; now destruct N; left|].
  rewrite IH; [reflexivity|]. intros H. apply N. now right.
Qed.
(** one case for texts that do not start with a hash *)
Lemma hash_case {A} (t : bytes) (x : A) (f : bytes -> A) : (exists r, t = "#"%char :: r) \/ match t with "#"%char :: r => f r | _ => x end = x.
Proof.
  destruct t as [|c t]; [now right|]. destruct (Ascii.ascii_dec c "#") as [->|C]; [left; now exists t|]. right. destruct c as [[] [] [] [] [] [] [] []]; reflexivity || now destruct C.
Qed.
Lemma key_plain t l : (forall r, t <> "#"%char :: r) -> key_of (Ref t l) = (t, l).
Proof.
  intros N. unfold key_of. cbn [r_target r_loc]. destruct t as [|c t]; [reflexivity|]. destruct (Ascii.ascii_dec c "#") as [->|C]; [now destruct (N t)|].
  destruct c as [[] [] [] [] [] [] [] []]; reflexivity || now destruct C.
Qed.
Lemma key_hash t l : t <> [] -> key_of (Ref ("#"%char :: t) l) = (t, Loc (S (l_start l)) (l_end l) (l_file l)).
Proof. destruct t; [contradiction|reflexivity]. Qed.
Definition plain (id : bytes) : Prop := id <> [] /\ ~ In "#"%char id /\ has_adoc_ext id = false /\ id <> $"__self__".
Lemma plain_no_hash id : plain id -> forall r, id <> "#"%char :: r.
Proof. intros (_ & N & _) r ->. apply N. now left. Qed.
Lemma refers_key r id : plain id -> (refers r id <-> fst (key_of r) = id).
Proof.
  intros P. destruct r as [t l]. unfold refers, names_id. cbn [r_target]. split.
  - intros [[-> | ->] _]; [now rewrite key_plain by now apply plain_no_hash|]. rewrite key_hash; [reflexivity|]. apply P.
  - intros K. split; [|exact P]. destruct (hash_case t tt (fun _ => tt)) as [[r ->]|H].
    + destruct r as [|c r]; [|now right; cbn in K; rewrite K]. cbn in K. subst id. destruct P as (_ & N & _). destruct N. now left.
    + destruct t as [|c t]; [now left|]. destruct (Ascii.ascii_dec c "#") as [->|C]; [|].
      * destruct t as [|c' t]; [|now right; cbn in K; rewrite K]. cbn in K. subst id. destruct P as (_ & N & _). destruct N. now left.
      * rewrite key_plain in K; [now left|]. intros r E. injection E as E _. contradiction.
Qed.
Lemma refers_loc r id : refers r id -> snd (key_of r) = id_loc r id /\ l_file (id_loc r id) = l_file (r_loc r).
Proof.
  destruct r as [t l]. unfold refers, id_loc. cbn [r_target r_loc]. intros [[-> | ->] P].
  - rewrite bytes_eqb_refl, key_plain by now apply plain_no_hash. now split.
  - destruct (bytes_eqb ("#"%char :: id) id) eqn:E; [apply bytes_eqb_eq in E; symmetry in E; now apply (plain_no_hash id P) in E|]. rewrite key_hash by apply P. now split.
Qed.
Lemma target_plain sources id f : plain id -> target_data sources id f = Some (f, id).
Proof.
  intros P. pose proof (plain_no_hash id P) as N. destruct P as (_ & H & E & _). unfold target_data. rewrite (split_hash_none id H), E. cbn [andb].
  destruct id as [|c t]; [reflexivity|]. destruct (Ascii.ascii_dec c "#") as [->|C]; [now destruct (N t)|]. destruct c as [[] [] [] [] [] [] [] []]; reflexivity || now destruct C.
Qed.
Lemma invalid_plain sources anchors id l : plain id -> (invalid sources anchors (id, l) = true <-> ~ anchored anchors id (l_file l)).
Proof.
  intros P. unfold invalid. cbn [fst snd]. rewrite (target_plain sources id (l_file l) P). destruct (bytes_eqb id ($"__self__")) eqn:S; [apply bytes_eqb_eq in S; now destruct P as (_ & _ & _ & P)|].
  unfold anchored. destruct (find_key id anchors) as [a|].
  - rewrite negb_true_iff, Nat.eqb_neq. split; [intros N (x & E & F); injection E as <-; contradiction|]. intros N E. apply N. now exists a.
  - split; [|trivial]. now intros _ (x & E & _).
Qed.
Lemma in_reports sources anchors l rep e : reports sources anchors l rep -> (In e rep <-> In e (collect l) /\ invalid sources anchors e = true).
Proof.
  intros (entries & P & ->). unfold diagnose_invalid_xrefs. rewrite filter_In. split; intros [A B]; (split; [|exact B]).
  - exact (Permutation_in _ P A).
  - exact (Permutation_in _ (Permutation_sym P) A).
Qed.
Lemma last_key l r id : plain id -> (last_reference l r id <-> exists before after, l = before ++ r :: after /\ fst (key_of r) = id /\ forall r', In r' after -> fst (key_of r') <> id).
Proof.
  intros P. unfold last_reference. split; intros (bf & af & E & R & A); exists bf, af; (split; [exact E|]); (split; [now apply refers_key|]); intros r' H; rewrite ?(refers_key r' id P);
    [rewrite <- (refers_key r' id P)|]; now apply A.
Qed.
Lemma reported_iff sources anchors l rep id v : reports sources anchors l rep -> plain id ->
  (In (id, v) rep <-> exists r, last_reference l r id /\ v = id_loc r id /\ ~ anchored anchors id (l_file (r_loc r))).
Proof.
  intros R P. rewrite (in_reports _ _ _ _ _ R), in_collect, (invalid_plain sources anchors id v P). split.
  - intros [(bf & r & af & E & K & A) N]. exists r. assert (F : fst (key_of r) = id) by now rewrite K. pose proof (proj2 (refers_key r id P) F) as Re.
    destruct (refers_loc r id Re) as [L1 L2]. rewrite K in L1. cbn [snd] in L1. split; [apply last_key; [exact P|]; now exists bf, af|]. split; [exact L1|]. rewrite <- L2, <- L1. exact N.
  - intros (r & La & -> & N). pose proof La as La'. apply last_key in La; [|exact P]. destruct La as (bf & af & E & K & A).
    pose proof (proj2 (refers_key r id P) K) as Re. destruct (refers_loc r id Re) as [L1 L2]. split; [|now rewrite L2].
    exists bf, r, af. split; [exact E|]. split; [rewrite <- L1, <- K; now destruct (key_of r)|exact A].
Qed.
Lemma last_exists l r k : In r l -> fst (key_of r) = k -> exists v, In (k, v) (collect l) /\ exists r', In r' l /\ key_of r' = (k, v).
Proof.
  revert r. induction l as [|x l IH] using rev_ind; intros r I K; [destruct I|]. rewrite collect_app. unfold push_xref. destruct (bytes_eqb k (fst (key_of x))) eqn:E.
  - apply bytes_eqb_eq in E. subst k. exists (snd (key_of x)). split; [apply in_insert; left; now rewrite E|]. exists x. split; [apply in_or_app; right; now left|]. rewrite E. now destruct (key_of x).
  - apply bytes_eqb_neq in E. apply in_app_iff in I. destruct I as [I|[<-|[]]]; [|now destruct E]. destruct (IH r I K) as (v & H & r' & I' & K'). exists v.
    split; [apply in_insert; now right|]. exists r'. split; [apply in_or_app; now left|exact K'].
Qed.
Lemma href_plain m t id k : names_id t id -> k = Shorthand \/ ~ In "."%char (basename t) -> href m t k true = "#"%char :: id.
Proof.
  intros [[-> | ->] P] K; unfold href.
  - pose proof (plain_no_hash id P) as N. assert (I : is_interdoc id k = false).
    { assert (X : match k with Shorthand => contains_byte "#" id | Macro => contains_byte "#" id || contains_byte "." (basename id) end = false).
      { destruct P as (_ & H & _). apply contains_byte_false in H. destruct k; [exact H|]. rewrite H. destruct K as [K|K]; [discriminate|]. now apply contains_byte_false in K. }
      unfold is_interdoc. destruct id as [|c t]; [exact X|]. destruct (Ascii.ascii_dec c "#") as [->|C]; [reflexivity|]. destruct c as [[] [] [] [] [] [] [] []]; exact X || now destruct C. }
    rewrite I. f_equal. unfold remove_leading_hash. destruct id as [|c t]; [reflexivity|]. destruct (Ascii.ascii_dec c "#") as [->|C]; [now destruct (N t)|].
    destruct c as [[] [] [] [] [] [] [] []]; reflexivity || now destruct C.
  - reflexivity.
Qed.

(** ** Files *)
Lemma ends_with_spec t s : ends_with t s = true <-> exists d, s = d ++ t.
Proof.
  unfold ends_with. rewrite starts_with_spec. split.
  - intros (r & E). exists (rev r). rewrite <- (rev_involutive s), E, rev_app_distr. now rewrite rev_involutive.
  - intros (d & ->). exists (rev d). now rewrite rev_app_distr.
Qed.
Lemma opt_eqb_eq x y : opt_eqb x y = true <-> x = y.
Proof. destruct x, y; cbn [opt_eqb]; rewrite ?bytes_eqb_eq; split; congruence. Qed.
Lemma matches_iff s path : matches_xref_target s path = true <-> names_file path s.
Proof.
  destruct s as [|name full|]; cbn [matches_xref_target names_file]; [now split| |now split]. destruct (bytes_eqb name path) eqn:E; [apply bytes_eqb_eq in E; split; auto|].
  apply bytes_eqb_neq in E. destruct (is_some (ext path) && negb (opt_eqb (ext path) (ext name))) eqn:X.
  { apply andb_true_iff in X. destruct X as [X1 X2]. apply negb_true_iff in X2. assert (Y : ext path <> ext name) by (intros H; apply opt_eqb_eq in H; congruence).
    split; [discriminate|]. intros [H|[(d & _ & [H|H])|(d & _ & H)]]; [now symmetry in H|now rewrite H in X1|contradiction|now rewrite H in X1]. }
  destruct (ends_with path full) eqn:F.
  { apply ends_with_spec in F. destruct F as (d & F). split; [|trivial]. intros _. right. left. exists d. split; [exact F|]. destruct (ext path) as [e|] eqn:P; [|now left]. right.
    cbn [is_some andb] in X. apply negb_false_iff in X. now apply opt_eqb_eq in X. }
  assert (NF : forall d, full <> d ++ path) by (intros d H; assert (W : ends_with path full = true) by (apply ends_with_spec; now exists d); congruence).
  destruct (is_some (ext path)) eqn:P.
  { split; [discriminate|]. intros [H|[(d & H & _)|(d & _ & H)]]; [now symmetry in H|now apply NF in H|now rewrite H in P]. }
  assert (Q : ext path = None) by now destruct (ext path). rewrite ends_with_spec. split; [intros (d & H); right; right; now exists d|].
  intros [H|[(d & H & _)|(d & H & _)]]; [now symmetry in H|now apply NF in H|now exists d].
Qed.
Lemma source_idx_iff path sources i0 i : source_idx_of i0 sources path = Some i <-> exists j, i = i0 + j /\ first_named path sources j.
Proof.
  revert i0. induction sources as [|s l IH]; intros i0; cbn [source_idx_of].
  - split; [discriminate|]. intros (j & _ & (s & E & _) & _). destruct j; discriminate E.
  - destruct (matches_xref_target s path) eqn:M.
    + apply matches_iff in M. split.
      * intros E. injection E as <-. exists 0. split; [lia|]. split; [now exists s|]. intros j x L. lia.
      * intros (j & -> & _ & F). destruct j; [f_equal; lia|]. exfalso. apply (F 0 s); [lia|reflexivity|exact M].
    + assert (N : ~ names_file path s) by (intros H; apply matches_iff in H; congruence). rewrite IH. split.
      * intros (j & -> & (x & E & K) & F). exists (S j). split; [lia|]. split; [now exists x|]. intros [|k] y L H; [injection H as <-; exact N|]. apply (F k y); [lia|exact H].
      * intros (j & -> & (x & E & K) & F). destruct j as [|j]; [injection E as ->; contradiction|]. exists j. split; [lia|]. split; [now exists x|]. intros k y L H. apply (F (S k) y); [lia|exact H].
Qed.
Lemma file_no_hash t path id : names_id_in_file t path id -> forall r, t <> "#"%char :: r.
Proof. intros (-> & P & N & _) r E. destruct path as [|c path]; [contradiction|]. injection E as -> _. apply N. now left. Qed.
Lemma target_file sources t path id f : names_id_in_file t path id -> target_data sources t f = match source_idx_of 0 sources path with Some i => Some (i, id) | None => None end.
Proof.
  intros H. pose proof (file_no_hash t path id H) as N. destruct H as (E & _ & P & X & _). unfold target_data. rewrite E, (split_hash_app path id P).
  assert (Y : has_adoc_ext path || negb (is_some (ext path)) = true) by (destruct X as [-> | ->]; [reflexivity|apply orb_true_r]). rewrite Y. rewrite <- E.
  destruct t as [|c t]; [reflexivity|]. destruct (Ascii.ascii_dec c "#") as [->|C]; [now destruct (N t)|]. destruct c as [[] [] [] [] [] [] [] []]; reflexivity || now destruct C.
Qed.
Lemma invalid_file sources anchors t path id l : names_id_in_file t path id -> (invalid sources anchors (t, l) = false <-> exists i, first_named path sources i /\ anchored anchors id i).
Proof.
  intros H. unfold invalid. cbn [fst snd]. rewrite (target_file sources t path id (l_file l) H). destruct H as (_ & _ & _ & _ & S).
  assert (Q : forall i, source_idx_of 0 sources path = Some i <-> first_named path sources i).
  { intros i. rewrite source_idx_iff. split; [now intros (j & -> & J)|]. intros J. now exists i. }
  destruct (source_idx_of 0 sources path) as [i|].
  - apply bytes_eqb_neq in S. rewrite S. pose proof (proj1 (Q i) eq_refl) as J. assert (U : forall k, first_named path sources k -> k = i) by (intros k K; apply Q in K; congruence). unfold anchored.
    destruct (find_key id anchors) as [a|].
    + rewrite negb_false_iff, Nat.eqb_eq. split; [intros E; exists i; split; [exact J|]; now exists a|]. intros (k & K & x & E & F). injection E as <-. rewrite F. now apply U.
    + split; [discriminate|]. now intros (k & _ & x & E & _).
  - split; [discriminate|]. intros (k & K & _). apply Q in K. discriminate K.
Qed.
Lemma href_file m t path id k : names_id_in_file t path id -> id <> [] ->
  href m t k true = if path_was_included m path then "#"%char :: id
                    else (match relfileprefix m with Some p => p | None => [] end) ++ (if has_adoc_ext path then remove_ext path else path) ++
                         (if match k with Shorthand => true | Macro => false end || has_adoc_ext path || negb (contains_byte "." (basename path)) then interdoc_suffix m else []) ++ "#"%char :: id.
Proof.
  intros H I. pose proof (file_no_hash t path id H) as N. destruct H as (E & _ & P & X & _). unfold href. assert (T : is_interdoc t k = true).
  { assert (C : contains_byte "#" t = true) by (apply contains_byte_spec; rewrite E; apply in_or_app; right; now left). unfold is_interdoc. rewrite C. cbn [orb].
    destruct t as [|c t']; [discriminate C|]. destruct (Ascii.ascii_dec c "#") as [->|D]; [now destruct (N t')|]. destruct c as [[] [] [] [] [] [] [] []]; now destruct k || now destruct D. }
  rewrite T. unfold interdoc_href. rewrite E, (split_hash_app path id P). destruct id as [|c id]; [contradiction|]. reflexivity.
Qed.

Lemma rsplit_dot_app d t x y : rsplit_dot t = Some (x, y) -> rsplit_dot (d ++ t) = Some (d ++ x, y).
Proof. intros H. induction d as [|c d IH]; [exact H|]. cbn [app rsplit_dot]. now rewrite IH. Qed.
Lemma rsplit_dot_eq t x y : rsplit_dot t = Some (x, y) -> t = x ++ y /\ y = "."%char :: tl y.
Proof.
  revert x y. induction t as [|c t IH]; intros x y H; [discriminate|]. cbn [rsplit_dot] in H. destruct (rsplit_dot t) as [[x' y']|].
  - injection H as <- <-. destruct (IH x' y' eq_refl) as [-> E]. now split.
  - destruct (Ascii.eqb c ".") eqn:E; [|discriminate]. apply Ascii.eqb_eq in E. subst c. injection H as <- <-. now split.
Qed.
Lemma basename_end s : exists d, s = d ++ basename s.
Proof. induction s as [|c s (d & IH)]; [now exists []|]. cbn [basename]. destruct (existsb is_separator (c :: s)); [exists (c :: d); cbn; now f_equal|now exists []]. Qed.
Lemma adoc_path_of path : has_adoc_ext path = true -> adoc_path path (remove_ext path).
Proof.
  unfold has_adoc_ext, ext, remove_ext, has_ext. destruct (basename_end path) as (d & E). destruct (rsplit_dot (basename path)) as [[x y]|] eqn:R; [|discriminate].
  intros H. assert (Q : rsplit_dot path = Some (d ++ x, y)) by (rewrite E; exact (rsplit_dot_app d _ _ _ R)). rewrite Q. destruct (rsplit_dot_eq _ _ _ R) as [B Y]. exists (tl y). split.
  - rewrite E, B, <- app_assoc. now rewrite <- Y.
  - apply existsb_exists in H. destruct H as (e & I & W). apply bytes_eqb_eq in W. rewrite W. exact I.
Qed.
Lemma suffix_of_model m : suffix_of m (interdoc_suffix m).
Proof. unfold suffix_of, interdoc_suffix. destruct (relfilesuffix m) as [s|]; [now left|]. right. split; [reflexivity|]. destruct (outfilesuffix m) as [s|]; [now left|now right]. Qed.

(** ** Anchors *)
Lemma anchors_app l d : anchors_of (l ++ [d]) = define d (anchors_of l).
Proof. unfold anchors_of. now rewrite fold_left_app. Qed.
Lemma anchors_keys l : NoDup (map fst (fst (anchors_of l))).
Proof.
  induction l as [|d l IH] using rev_ind; [constructor|]. rewrite anchors_app. destruct d as [id at_ p|id f]; cbn [define]; [|now apply keys_insert].
  destruct (find_key id _) as [q|]; [destruct (same_loc _ _); [now apply keys_insert|exact IH]|now apply keys_insert].
Qed.
Lemma anchor_known l d : In d l -> find_key (def_id d) (fst (anchors_of l)) <> None.
Proof.
  induction l as [|x l IH] using rev_ind; intros I; [destruct I|]. pose proof (anchors_keys l) as N. rewrite anchors_app.
  assert (Keep : forall k p, find_key (def_id d) (fst (anchors_of l)) <> None -> find_key (def_id d) (insert k p (fst (anchors_of l))) <> None)
    by (intros k p H; rewrite find_insert by exact N; destruct (bytes_eqb _ _); [discriminate|exact H]).
  assert (New : forall p, find_key (def_id x) (insert (def_id x) p (fst (anchors_of l))) <> None) by (intros p; rewrite find_insert by exact N; now rewrite bytes_eqb_refl).
  apply in_app_iff in I. destruct I as [I|[<-|[]]].
  - specialize (IH I). destruct x as [id at_ p|id f]; cbn [define fst]; [|now apply Keep]. destruct (find_key id _) as [q|]; [destruct (same_loc _ _); [now apply Keep|exact IH]|now apply Keep].
  - destruct x as [id at_ p|id f]; cbn [define fst]; [|apply (New _)]. cbn [def_id] in *. destruct (find_key id _) as [q|] eqn:F; [destruct (same_loc _ _); [apply (New _)|cbn [fst]; now rewrite F]|apply (New _)].
Qed.
Lemma loc_eqb_eq x y : loc_eqb x y = true <-> x = y.
Proof.
  destruct x as [a b c], y as [a' b' c']. unfold loc_eqb. cbn. rewrite !andb_true_iff, !Nat.eqb_eq. split; [intros [[-> ->] ->]; reflexivity|]. intros E. now injection E as -> -> ->.
Qed.
Lemma repeated_app l d seen : repeated seen (l ++ [d]) = repeated seen l ++ repeated (rev (map def_id l) ++ seen) [d].
Proof.
  revert seen. induction l as [|x l IH]; intros seen; [reflexivity|]. cbn [app repeated map rev]. rewrite IH, <- !app_assoc. reflexivity.
Qed.
Lemma own_places_app l d : own_places (l ++ [d]) -> own_places l /\ (exists id at_ p x, d = AnchorDef id at_ p /\ a_loc p = Some x /\ forall e, In e l -> anchor_at e <> Some x).
Proof.
  intros [F N]. apply Forall_app in F. destruct F as [F1 F2]. rewrite map_app in N. apply (Permutation_NoDup (Permutation_app_comm _ _)) in N. cbn in N. apply NoDup_cons_iff in N. destruct N as [N1 N2].
  split; [now split|]. apply Forall_inv in F2. destruct d as [id at_ p|]; [|contradiction]. cbn in N1. destruct (a_loc p) as [x|] eqn:A; [|contradiction]. exists id, at_, p, x.
  split; [reflexivity|]. split; [exact A|]. intros e I E. apply N1. apply in_map_iff. now exists e.
Qed.
Lemma anchors_once l : own_places l ->
  (forall id p, find_key id (fst (anchors_of l)) = Some p <-> first_definition l id p) /\ snd (anchors_of l) = repeated [] l /\
  (forall id p, find_key id (fst (anchors_of l)) = Some p -> exists e, In e l /\ anchor_at e = a_loc p).
Proof.
  induction l as [|d l IH] using rev_ind; intros O.
  - split; [|split; [reflexivity|discriminate]]. intros id p. split; [discriminate|]. intros ([|] & at_ & af & E & _); discriminate E.
  - destruct (own_places_app l d O) as (O' & id & at_ & p & x & -> & A & U). destruct (IH O') as (I1 & I2 & I3). clear IH. pose proof (anchors_keys l) as K. rewrite anchors_app, repeated_app, app_nil_r. cbn [define].
    assert (FD : forall id' p', first_definition (l ++ [AnchorDef id at_ p]) id' p' <-> first_definition l id' p' \/ (id' = id /\ p' = p /\ forall e, In e l -> def_id e <> id)).
    { intros id' p'. unfold first_definition. split.
      - intros (bf & a & af & E & B). destruct af as [|y af] using rev_ind.
        + apply app_inj_tail in E. destruct E as [-> E]. injection E as -> -> ->. now right.
        + clear IHaf. change (AnchorDef id' a p' :: af ++ [y]) with ((AnchorDef id' a p' :: af) ++ [y]) in E. rewrite app_assoc in E. apply app_inj_tail in E. destruct E as [-> _]. left. now exists bf, a, af.
      - intros [(bf & a & af & -> & B)|(-> & -> & B)]; [exists bf, a, (af ++ [AnchorDef id at_ p]); split; [now rewrite <- app_assoc|exact B]|]. now exists l, at_, []. }
    destruct (find_key id (fst (anchors_of l))) as [q|] eqn:F.
    + assert (NS : same_loc (a_loc q) (a_loc p) = false).
      { rewrite A. destruct (I3 id q F) as (e & Ie & Ee). destruct (a_loc q) as [y|]; [|reflexivity]. cbn [same_loc]. destruct (loc_eqb y x) eqn:L; [|reflexivity]. apply loc_eqb_eq in L. subst y. now destruct (U e Ie). }
      rewrite NS. cbn [fst snd].
      assert (Ex : exists e, In e l /\ def_id e = id) by (apply I1 in F; destruct F as (bf & a & af & -> & _); eexists; split; [apply in_or_app; right; now left|reflexivity]).
      destruct Ex as (e & Ie & Ee). split; [|split].
      * intros id' p'. rewrite FD, I1. split; [now left|]. intros [H|(-> & -> & H)]; [exact H|]. now destruct (H e Ie).
      * rewrite I2. f_equal. cbn [repeated def_id]. assert (X : existsb (bytes_eqb id) (rev (map def_id l)) = true) by (apply existsb_exists; exists id; split; [rewrite <- in_rev; apply in_map_iff; now exists e|apply bytes_eqb_refl]).
        rewrite X. now rewrite app_nil_r.
      * intros id' p' H. destruct (I3 id' p' H) as (e' & J1 & J2). exists e'. split; [apply in_or_app; now left|exact J2].
    + assert (None_ : forall e, In e l -> def_id e <> id) by (intros e Ie E; apply (anchor_known l e Ie); now rewrite E). cbn [fst snd]. split; [|split].
      * intros id' p'. rewrite find_insert by exact K. rewrite FD. destruct (bytes_eqb id' id) eqn:E.
        -- apply bytes_eqb_eq in E. subst id'. split; [intros H; injection H as <-; right; now repeat split|]. intros [H|(_ & -> & _)]; [apply I1 in H; congruence|reflexivity].
        -- apply bytes_eqb_neq in E. rewrite I1. split; [now left|]. intros [H|(H & _)]; [exact H|contradiction].
      * rewrite I2. cbn [repeated def_id]. assert (X : existsb (bytes_eqb id) (rev (map def_id l)) = false).
        { apply not_true_iff_false. intros H. apply existsb_exists in H. destruct H as (y & Iy & Ey). apply bytes_eqb_eq in Ey. subst y. rewrite <- in_rev in Iy. apply in_map_iff in Iy. destruct Iy as (e & Ee & Ie). now apply (None_ e). }
        rewrite X. cbn [app]. now rewrite app_nil_r.
      * intros id' p' H. rewrite find_insert in H by exact K. destruct (bytes_eqb id' id); [injection H as <-; eexists; split; [apply in_or_app; right; now left|reflexivity]|].
        destruct (I3 id' p' H) as (e' & J1 & J2). exists e'. split; [apply in_or_app; now left|exact J2].
Qed.
