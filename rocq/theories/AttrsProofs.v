(** Lemmas for AttrsProps.v *)
From Verif Require Import Base AttrsModel AttrsSpec.

Lemma aget_aremove_same {A} (m : amap A) k : aget (aremove m k) k = None.
Proof.
  induction m as [|[k' v] m IH]; simpl; [reflexivity|].
  destruct (String.eqb k' k) eqn:E; simpl; [exact IH|rewrite E; exact IH].
Qed.
Lemma aget_aremove_other {A} (m : amap A) k k' : k' <> k -> aget (aremove m k) k' = aget m k'.
Proof.
  intro H. induction m as [|[j v] m IH]; simpl; [reflexivity|].
  destruct (String.eqb j k) eqn:E; simpl.
  - apply String.eqb_eq in E as ->. destruct (String.eqb k k') eqn:E2.
    + apply String.eqb_eq in E2. congruence.
    + exact IH.
  - destruct (String.eqb j k'); [reflexivity|exact IH].
Qed.
Lemma aget_aput_same {A} (m : amap A) k v : aget (aput m k v) k = Some v.
Proof. unfold aput; simpl. rewrite String.eqb_refl. reflexivity. Qed.
Lemma aget_aput_other {A} (m : amap A) k k' v : k' <> k -> aget (aput m k v) k' = aget m k'.
Proof.
  intro H. unfold aput; simpl. destruct (String.eqb k k') eqn:E.
  - apply String.eqb_eq in E. congruence.
  - apply aget_aremove_other. exact H.
Qed.

Lemma mem_In k l : mem k l = true <-> In k l.
Proof.
  unfold mem. rewrite existsb_exists. split.
  - intros [x [Hx E]]. apply String.eqb_eq in E. subst. exact Hx.
  - intro H. exists k. split; [exact H|apply String.eqb_refl].
Qed.
Lemma mem_nIn k l : mem k l = false <-> ~ In k l.
Proof. rewrite <- mem_In. destruct (mem k l); split; congruence. Qed.

Ltac seqb H := let E := fresh "E" in
  match type of H with context[String.eqb ?x ?y] => destruct (String.eqb x y) eqn:E end.

Lemma one_of_In opts v : one_of opts v = true <-> In v (map AStr opts).
Proof.
  destruct v as [s|x]; simpl.
  - rewrite in_map_iff, existsb_exists. split.
    + intros [y [Hy E]]. apply String.eqb_eq in E. subst. eauto.
    + intros [y [E Hy]]. injection E as ->. exists s. split; [exact Hy|apply String.eqb_refl].
  - split; [discriminate|]. rewrite in_map_iff. intros [y [E _]]. discriminate.
Qed.

Lemma legal_value_spec k v : legal_value k v = true <-> spec_value_ok k v.
Proof.
  unfold legal_value, spec_value_ok.
  destruct (String.eqb k "attribute-missing") eqn:E1.
  { apply String.eqb_eq in E1 as ->. rewrite one_of_In. split.
    - intro H. repeat split; try (intro; congruence); [exact (fun _ => H)|].
      intros [C|C]; discriminate.
    - intros [H _]. exact (H eq_refl). }
  destruct (String.eqb k "attribute-undefined") eqn:E2.
  { apply String.eqb_eq in E2 as ->. rewrite one_of_In. split.
    - intro H. repeat split; try (intro; congruence); [exact (fun _ => H)|].
      intros [C|C]; discriminate.
    - intros [_ [H _]]. exact (H eq_refl). }
  apply String.eqb_neq in E1, E2.
  destruct (String.eqb k "showtitle") eqn:E3; simpl.
  { apply String.eqb_eq in E3 as ->. split.
    - intro H. repeat split; try (intro; congruence). intros _. destruct v; [discriminate|eauto].
    - intros [_ [_ H]]. destruct (H (or_introl eq_refl)) as [x ->]. reflexivity. }
  destruct (String.eqb k "notitle") eqn:E4; simpl.
  { apply String.eqb_eq in E4 as ->. split.
    - intro H. repeat split; try (intro; congruence). intros _. destruct v; [discriminate|eauto].
    - intros [_ [_ H]]. destruct (H (or_intror eq_refl)) as [x ->]. reflexivity. }
  apply String.eqb_neq in E3, E4.
  split; [|reflexivity]. intros _. repeat split; try congruence. intros [C|C]; congruence.
Qed.

(** effect of a checked insertion on one layer *)
Lemma attrs_insert_ok m k v :
  legal_value k v = true ->
  snd (attrs_insert m k v) = true /\
  (forall k', aget (fst (attrs_insert m k v)) k' =
     if String.eqb k k' then Some v
     else if (String.eqb k "showtitle" && String.eqb k' "notitle")
             || (String.eqb k "notitle" && String.eqb k' "showtitle") then None
     else aget m k').
Proof.
  intro L. unfold attrs_insert, validate_attr. rewrite L.
  destruct (String.eqb k "showtitle") eqn:E1; [|destruct (String.eqb k "notitle") eqn:E2];
    simpl; (split; [reflexivity|intro k']);
    destruct (String.eqb k k') eqn:E; try reflexivity; apply String.eqb_neq in E;
    rewrite ?aget_aremove_other by congruence.
  - apply String.eqb_eq in E1; subst k.
    destruct (String.eqb k' "notitle") eqn:E3; simpl.
    + apply String.eqb_eq in E3 as ->. apply aget_aremove_same.
    + apply String.eqb_neq in E3. apply aget_aremove_other. exact E3.
  - apply String.eqb_eq in E2; subst k.
    destruct (String.eqb k' "showtitle") eqn:E3; simpl.
    + apply String.eqb_eq in E3 as ->. apply aget_aremove_same.
    + apply String.eqb_neq in E3. apply aget_aremove_other. exact E3.
  - reflexivity.
Qed.
Lemma attrs_insert_bad m k v : legal_value k v = false -> attrs_insert m k v = (m, false).
Proof. intro L. unfold attrs_insert, validate_attr. rewrite L. reflexivity. Qed.

Lemma opposite_bool k k' :
  (String.eqb k "showtitle" && String.eqb k' "notitle")
    || (String.eqb k "notitle" && String.eqb k' "showtitle") = true <-> spec_opposite k k'.
Proof.
  unfold spec_opposite. rewrite orb_true_iff, !andb_true_iff, !String.eqb_eq. tauto.
Qed.

Lemma doctype_parse_spec v d :
  match av_str v with Some s => doctype_parse s | None => None end = Some d <-> spec_names_doctype v d.
Proof.
  unfold spec_names_doctype. destruct v as [s|[|]]; simpl; [|split; [discriminate|destruct d; discriminate]..].
  unfold doctype_parse.
  destruct (String.eqb s "article") eqn:E1; [apply String.eqb_eq in E1; subst; split; [intro H; injection H as <-; reflexivity|destruct d; intro H; try discriminate; reflexivity]|].
  destruct (String.eqb s "book") eqn:E2; [apply String.eqb_eq in E2; subst; split; [intro H; injection H as <-; reflexivity|destruct d; intro H; try discriminate; reflexivity]|].
  destruct (String.eqb s "manpage") eqn:E3; [apply String.eqb_eq in E3; subst; split; [intro H; injection H as <-; reflexivity|destruct d; intro H; try discriminate; reflexivity]|].
  destruct (String.eqb s "inline") eqn:E4; [apply String.eqb_eq in E4; subst; split; [intro H; injection H as <-; reflexivity|destruct d; intro H; try discriminate; reflexivity]|].
  apply String.eqb_neq in E1, E2, E3, E4. split; [discriminate|].
  destruct d; intro H; injection H as ->; congruence.
Qed.

Lemma set_doctype_header m d k :
  aget (m_header (set_doctype m d)) k =
  if String.eqb "doctype" k then Some (AStr (doctype_str d)) else aget (m_header m) k.
Proof.
  unfold set_doctype. cbn [m_header with_header with_doctype].
  destruct (attrs_insert_ok (m_header m) "doctype" (AStr (doctype_str d)) eq_refl) as [_ H].
  rewrite H. destruct (String.eqb "doctype" k); reflexivity.
Qed.
Lemma set_doctype_never_panics m d :
  snd (attrs_insert (m_header m) "doctype" (AStr (doctype_str d))) = true.
Proof. reflexivity. Qed.

(** ** insertion into the header *)
Definition header_accepts (m : meta) (k : string) (v : attr_value) : Prop :=
  ~ spec_job_only k /\ spec_value_ok k v /\
  (k = "doctype"%string -> exists d, spec_names_doctype v d) /\
  (spec_book_only k -> m_doctype m = Book).

Lemma doctype_eqb_eq x y : doctype_eqb x y = true <-> x = y.
Proof. destruct x, y; simpl; split; congruence. Qed.

Lemma not_legal_not_ok k v : legal_value k v = false -> ~ spec_value_ok k v.
Proof. intros L H. apply legal_value_spec in H. congruence. Qed.

Lemma insert_header_accept_iff m k v :
  snd (insert_header_attr m k v) = true <-> header_accepts m k v.
Proof.
  unfold insert_header_attr, header_accepts.
  destruct (mem k JOB_ONLY) eqn:EJ.
  { apply mem_In in EJ. split; [discriminate|]. intros [H _]. elim H. exact EJ. }
  apply mem_nIn in EJ.
  destruct (String.eqb k "doctype") eqn:ED.
  { apply String.eqb_eq in ED; subst k.
    destruct (match av_str v with Some s => doctype_parse s | None => None end) as [d|] eqn:EP; simpl.
    - apply doctype_parse_spec in EP. split; [|reflexivity]. intros _.
      repeat split; try (intro C; discriminate C).
      + exact EJ.
      + intros [C|C]; discriminate C.
      + intros _. exists d. exact EP.
      + intros C. exfalso. unfold spec_book_only in C. simpl in C. intuition discriminate.
    - split; [discriminate|]. intros [_ [_ [H _]]]. destruct (H eq_refl) as [d Hd].
      apply doctype_parse_spec in Hd. congruence. }
  apply String.eqb_neq in ED.
  destruct (mem k book_only && negb (doctype_eqb (m_doctype m) Book)) eqn:EB.
  { apply andb_prop in EB as [E1 E2]. apply mem_In in E1. apply negb_true_iff in E2. split; [discriminate|].
    intros [_ [_ [_ H]]]. specialize (H E1). rewrite H in E2. discriminate. }
  assert (HB : spec_book_only k -> m_doctype m = Book).
  { intro Hk. apply mem_In in Hk. unfold book_only in EB. rewrite Hk in EB. simpl in EB.
    apply negb_false_iff in EB. apply doctype_eqb_eq. exact EB. }
  destruct (legal_value k v) eqn:EL.
  - destruct (attrs_insert (m_header m) k v) as [h ok] eqn:EI. simpl.
    pose proof (proj1 (attrs_insert_ok (m_header m) k v EL)) as Hs. rewrite EI in Hs. simpl in Hs. subst ok.
    split; [|reflexivity]. intros _. apply legal_value_spec in EL.
    split; [exact EJ|]. split; [exact EL|]. split; [congruence|exact HB].
  - rewrite attrs_insert_bad by exact EL. simpl. split; [discriminate|].
    intros [_ [H _]]. elim (not_legal_not_ok _ _ EL H).
Qed.

Lemma with_header_id m : with_header m (m_header m) = m.
Proof. destruct m; reflexivity. Qed.
Lemma with_doc_id m : with_doc m (m_doc m) = m.
Proof. destruct m; reflexivity. Qed.
Lemma with_job_id m : with_job m (m_job m) = m.
Proof. destruct m; reflexivity. Qed.

Lemma insert_header_rejected m k v :
  snd (insert_header_attr m k v) = false -> fst (insert_header_attr m k v) = m.
Proof.
  unfold insert_header_attr.
  destruct (mem k JOB_ONLY); [reflexivity|].
  destruct (String.eqb k "doctype").
  { destruct (match av_str v with Some s => doctype_parse s | None => None end); simpl; congruence. }
  destruct (mem k book_only && negb (doctype_eqb (m_doctype m) Book)); [reflexivity|].
  destruct (legal_value k v) eqn:EL.
  - pose proof (proj1 (attrs_insert_ok (m_header m) k v EL)) as Hs.
    destruct (attrs_insert (m_header m) k v) as [h ok]. simpl in *. congruence.
  - rewrite attrs_insert_bad by exact EL. simpl. intros _. apply with_header_id.
Qed.

Lemma insert_header_frame m k v :
  let m' := fst (insert_header_attr m k v) in
  m_job m' = m_job m /\ m_doc m' = m_doc m /\ m_default m' = m_default m /\
  m_authors m' = m_authors m /\ m_safe m' = m_safe m /\ m_embedded m' = m_embedded m.
Proof.
  unfold insert_header_attr.
  destruct (mem k JOB_ONLY); [repeat split; reflexivity|].
  destruct (String.eqb k "doctype").
  { destruct (match av_str v with Some s => doctype_parse s | None => None end); repeat split; reflexivity. }
  destruct (mem k book_only && negb (doctype_eqb (m_doctype m) Book)); [repeat split; reflexivity|].
  destruct (attrs_insert (m_header m) k v); repeat split; reflexivity.
Qed.

Lemma insert_header_accepted m k v :
  snd (insert_header_attr m k v) = true ->
  let m' := fst (insert_header_attr m k v) in
  (forall k', aget (m_header m') k' =
     if String.eqb k k' then Some v
     else if (String.eqb k "showtitle" && String.eqb k' "notitle")
             || (String.eqb k "notitle" && String.eqb k' "showtitle") then None
     else aget (m_header m) k') /\
  (k <> "doctype"%string -> m_doctype m' = m_doctype m) /\
  (k = "doctype"%string -> spec_names_doctype v (m_doctype m')).
Proof.
  unfold insert_header_attr.
  destruct (mem k JOB_ONLY); [discriminate|].
  destruct (String.eqb k "doctype") eqn:ED.
  { apply String.eqb_eq in ED; subst k.
    destruct (match av_str v with Some s => doctype_parse s | None => None end) as [d|] eqn:EP; [|discriminate].
    intros _. cbn zeta. simpl fst. apply doctype_parse_spec in EP.
    split; [|split; [congruence|intros _; exact EP]].
    intro k'. rewrite set_doctype_header.
    destruct (String.eqb "doctype" k') eqn:E; [|reflexivity].
    rewrite EP. destruct d; reflexivity. }
  apply String.eqb_neq in ED.
  destruct (mem k book_only && negb (doctype_eqb (m_doctype m) Book)); [discriminate|].
  destruct (legal_value k v) eqn:EL.
  - pose proof (attrs_insert_ok (m_header m) k v EL) as [_ Hg].
    destruct (attrs_insert (m_header m) k v) as [h ok]. simpl in *. intros _.
    split; [exact Hg|]. split; [reflexivity|congruence].
  - rewrite attrs_insert_bad by exact EL. discriminate.
Qed.

(** ** insertion in the body *)
Lemma insert_doc_accept_iff m k v :
  snd (insert_doc_attr m k v) = true <-> spec_body_accepts k v.
Proof.
  unfold insert_doc_attr, spec_body_accepts.
  destruct (mem k JOB_ONLY) eqn:EJ.
  { apply mem_In in EJ. split; [discriminate|]. intros [H _]. elim H. exact EJ. }
  destruct (mem k HEADER_ONLY) eqn:EH.
  { apply mem_In in EH. split; [discriminate|]. intros [_ [H _]]. elim H. exact EH. }
  apply mem_nIn in EJ, EH.
  destruct (legal_value k v) eqn:EL.
  - pose proof (proj1 (attrs_insert_ok (m_doc m) k v EL)) as Hs.
    destruct (attrs_insert (m_doc m) k v) as [h ok]. simpl in *. subst ok.
    apply legal_value_spec in EL. split; [|reflexivity]. intros _. repeat split; try assumption; apply EL.
  - rewrite attrs_insert_bad by exact EL. simpl. split; [discriminate|].
    intros [_ [_ H]]. elim (not_legal_not_ok _ _ EL H).
Qed.
Lemma insert_doc_rejected m k v :
  snd (insert_doc_attr m k v) = false -> fst (insert_doc_attr m k v) = m.
Proof.
  unfold insert_doc_attr.
  destruct (mem k JOB_ONLY); [reflexivity|]. destruct (mem k HEADER_ONLY); [reflexivity|].
  destruct (legal_value k v) eqn:EL.
  - pose proof (proj1 (attrs_insert_ok (m_doc m) k v EL)) as Hs.
    destruct (attrs_insert (m_doc m) k v) as [h ok]. simpl in *. congruence.
  - rewrite attrs_insert_bad by exact EL. simpl. intros _. apply with_doc_id.
Qed.
Lemma insert_doc_frame m k v :
  let m' := fst (insert_doc_attr m k v) in
  m_job m' = m_job m /\ m_header m' = m_header m /\ m_default m' = m_default m /\
  m_authors m' = m_authors m /\ m_safe m' = m_safe m /\ m_embedded m' = m_embedded m /\
  m_doctype m' = m_doctype m.
Proof.
  unfold insert_doc_attr.
  destruct (mem k JOB_ONLY); [repeat split; reflexivity|].
  destruct (mem k HEADER_ONLY); [repeat split; reflexivity|].
  destruct (attrs_insert (m_doc m) k v); repeat split; reflexivity.
Qed.
Lemma insert_doc_accepted m k v :
  snd (insert_doc_attr m k v) = true ->
  forall k', aget (m_doc (fst (insert_doc_attr m k v))) k' =
     if String.eqb k k' then Some v
     else if (String.eqb k "showtitle" && String.eqb k' "notitle")
             || (String.eqb k "notitle" && String.eqb k' "showtitle") then None
     else aget (m_doc m) k'.
Proof.
  unfold insert_doc_attr.
  destruct (mem k JOB_ONLY); [discriminate|]. destruct (mem k HEADER_ONLY); [discriminate|].
  destruct (legal_value k v) eqn:EL.
  - pose proof (attrs_insert_ok (m_doc m) k v EL) as [_ Hg].
    destruct (attrs_insert (m_doc m) k v) as [h ok]. simpl in *. intros _. exact Hg.
  - rewrite attrs_insert_bad by exact EL. discriminate.
Qed.

(** ** authors *)
Lemma insert_string_header m k v k' :
  legal_value k (AStr v) = true ->
  k <> "showtitle"%string -> k <> "notitle"%string ->
  aget (m_header (insert_string_attr m k v)) k' =
  if String.eqb k k' then Some (AStr v) else aget (m_header m) k'.
Proof.
  intros L H1 H2. unfold insert_string_attr. cbn [m_header with_header].
  rewrite (proj2 (attrs_insert_ok (m_header m) k (AStr v) L)).
  destruct (String.eqb k k'); [reflexivity|].
  apply String.eqb_neq in H1, H2. rewrite H1, H2. reflexivity.
Qed.

Lemma first_char_char1 s c : first_char s = Some c -> c = char1 s.
Proof. destruct s as [|x s]; simpl; [discriminate|]. intro H; injection H as <-. destruct s; reflexivity. Qed.

Lemma initials_spec a ini : initials a = Ret ini -> ini = spec_initials a.
Proof.
  unfold initials, spec_initials.
  destruct (first_char (first_name a)) as [f|] eqn:Ef; [|discriminate].
  destruct (first_char (last_name a)) as [l|] eqn:El; [|discriminate].
  intro H; injection H as <-. apply first_char_char1 in Ef, El. subst f l.
  destruct (middle_name a) as [m|]; [|reflexivity].
  destruct (first_char m) as [c|] eqn:Em.
  - apply first_char_char1 in Em. subst c. reflexivity.
  - destruct m; [reflexivity|discriminate].
Qed.
Lemma fullname_spec a : fullname a = spec_fullname a.
Proof. unfold fullname, spec_fullname. destruct (middle_name a); reflexivity. Qed.

Lemma legal_free k v :
  k <> "attribute-missing"%string -> k <> "attribute-undefined"%string ->
  k <> "showtitle"%string -> k <> "notitle"%string -> legal_value k v = true.
Proof.
  intros H1 H2 H3 H4. unfold legal_value.
  apply String.eqb_neq in H1, H2, H3, H4. rewrite H1, H2, H3, H4. reflexivity.
Qed.

Lemma ins_str m k v k' :
  k <> "attribute-missing"%string -> k <> "attribute-undefined"%string ->
  k <> "showtitle"%string -> k <> "notitle"%string ->
  aget (m_header (insert_string_attr m k v)) k' =
  if String.eqb k k' then Some (AStr v) else aget (m_header m) k'.
Proof. intros. apply insert_string_header; auto. apply legal_free; auto. Qed.
Lemma ins_opt m k v k' :
  k <> "attribute-missing"%string -> k <> "attribute-undefined"%string ->
  k <> "showtitle"%string -> k <> "notitle"%string ->
  aget (m_header (insert_string_opt m k v)) k' =
  match v with Some v => if String.eqb k k' then Some (AStr v) else aget (m_header m) k'
             | None => aget (m_header m) k' end.
Proof. intros. destruct v; simpl; [apply ins_str; auto|reflexivity]. Qed.

(** all single-valued author attributes, in the order they are assigned *)
Definition author_list1 (a : author) : list (string * option string) :=
  [("author", Some (spec_fullname a)); ("email", email a); ("lastname", Some (last_name a));
   ("middlename", middle_name a); ("firstname", Some (first_name a));
   ("authorinitials", Some (spec_initials a))]%string.
Definition author_list_n (n : nat) (a : author) : list (string * option string) :=
  [("author_" ++ dec n, Some (spec_fullname a)); ("email_" ++ dec n, email a);
   ("lastname_" ++ dec n, Some (last_name a)); ("middlename_" ++ dec n, middle_name a);
   ("firstname_" ++ dec n, Some (first_name a));
   ("authorinitials_" ++ dec n, Some (spec_initials a))]%string.
Definition author_list (n : nat) (a : author) : list (string * option string) :=
  (if Nat.eqb n 1 then author_list1 a else []) ++ author_list_n n a.
Fixpoint olookup (l : list (string * option string)) (k : string) : option string :=
  match l with
  | [] => None
  | (k', v) :: r => if String.eqb k' k then match v with Some _ => v | None => olookup r k end else olookup r k
  end.
Definition author_val (n : nat) (a : author) (k : string) : option string := olookup (author_list n a) k.

Lemma olookup_In l k v : NoDup (map fst l) -> (olookup l k = Some v <-> In (k, Some v) l).
Proof.
  induction l as [|[k' w] l IH]; simpl; intro ND; [split; [discriminate|contradiction]|].
  inversion ND as [|? ? Hn ND']; subst. specialize (IH ND').
  destruct (String.eqb k' k) eqn:E.
  - apply String.eqb_eq in E; subst k'.
    assert (Hno : ~ In (k, Some v) l).
    { intro C. apply Hn. apply (in_map fst) in C. exact C. }
    destruct w as [w|].
    + split; [intro H; injection H as ->; left; reflexivity|intros [H|H]; [congruence|contradiction]].
    + rewrite IH. split; [tauto|intros [H|H]; [congruence|exact H]].
  - apply String.eqb_neq in E. rewrite IH. split; [tauto|intros [H|H]; [congruence|exact H]].
Qed.

Ltac in_absurd := let C := fresh "C" in simpl; intro C;
    repeat match type of C with _ \/ _ => destruct C as [C|C]; [discriminate C|] end; exact C.
Ltac nodup_keys := repeat (apply NoDup_cons; [in_absurd|]); apply NoDup_nil.
Lemma author_list_n_nodup n a : NoDup (map fst (author_list_n n a)).
Proof. cbn [map fst author_list_n]. nodup_keys. Qed.
Lemma author_list_nodup n a : NoDup (map fst (author_list n a)).
Proof.
  unfold author_list. destruct (Nat.eqb n 1); cbn [map fst author_list_n author_list1 app]; nodup_keys.
Qed.

Lemma author_val_spec n a k v : author_val n a k = Some v <-> spec_author_attr n a k v.
Proof.
  unfold author_val. rewrite olookup_In by apply author_list_nodup. unfold author_list.
  rewrite in_app_iff. split.
  - intros [H|H].
    + destruct (Nat.eqb_spec n 1) as [->|]; [|contradiction H].
      cbn [author_list1 In] in H.
      repeat (destruct H as [H|H]; [injection H as <- H; try subst v|]); try contradiction;
      [apply SA_author1|apply SA_email1|apply SA_last1|apply SA_middle1|apply SA_first1|apply SA_init1]; auto.
    + cbn [author_list_n In] in H.
      repeat (destruct H as [H|H]; [injection H as <- H; try subst v|]); try contradiction;
      [apply SA_author|apply SA_email|apply SA_last|apply SA_middle|apply SA_first|apply SA_init]; auto.
  - intro H. destruct H; subst;
    repeat match goal with H : _ = Some _ |- _ => rewrite <- H end;
    first [right; simpl; tauto|left; simpl; tauto].
Qed.

Definition ins_list (m : meta) (l : list (string * option string)) : meta :=
  fold_left (fun m e => insert_string_opt m (fst e) (snd e)) l m.
Definition free_key (k : string) : Prop :=
  k <> "attribute-missing"%string /\ k <> "attribute-undefined"%string /\
  k <> "showtitle"%string /\ k <> "notitle"%string.

Lemma ins_list_header m l k :
  Forall (fun e => free_key (fst e)) l -> NoDup (map fst l) ->
  aget (m_header (ins_list m l)) k =
  match olookup l k with Some v => Some (AStr v) | None => aget (m_header m) k end.
Proof.
  revert m; induction l as [|[k' v] l IH]; intros m F ND; [reflexivity|].
  inversion F as [|? ? [F1 [F2 [F3 F4]]] F']; subst. inversion ND as [|? ? Hn ND']; subst.
  change (ins_list m ((k', v) :: l)) with (ins_list (insert_string_opt m k' v) l).
  rewrite IH by assumption. cbn [fst] in *. rewrite ins_opt by assumption. simpl olookup.
  destruct (String.eqb k' k) eqn:E.
  - apply String.eqb_eq in E; subst k'.
    assert (olookup l k = None) as ->.
    { destruct (olookup l k) as [w|] eqn:EO; [|reflexivity]. exfalso. apply Hn.
      apply olookup_In in EO; [|exact ND']. apply (in_map fst) in EO. exact EO. }
    destruct v; reflexivity.
  - destruct v; reflexivity.
Qed.

Lemma ins_opt_frame m k v :
  let m' := insert_string_opt m k v in
  m_job m' = m_job m /\ m_doc m' = m_doc m /\ m_default m' = m_default m /\
  m_authors m' = m_authors m /\ m_safe m' = m_safe m /\ m_embedded m' = m_embedded m /\
  m_doctype m' = m_doctype m.
Proof. destruct v; repeat split; reflexivity. Qed.
Lemma ins_list_frame l m :
  let m' := ins_list m l in
  m_job m' = m_job m /\ m_doc m' = m_doc m /\ m_default m' = m_default m /\
  m_authors m' = m_authors m /\ m_safe m' = m_safe m /\ m_embedded m' = m_embedded m /\
  m_doctype m' = m_doctype m.
Proof.
  revert m; induction l as [|[k v] l IH]; intro m; [repeat split; reflexivity|].
  change (ins_list m ((k, v) :: l)) with (ins_list (insert_string_opt m k v) l).
  pose proof (ins_opt_frame m k v) as [F1 [F2 [F3 [F4 [F5 [F6 F7]]]]]]. cbn zeta in *.
  specialize (IH (insert_string_opt m k v)). rewrite F1, F2, F3, F4, F5, F6, F7 in IH. exact IH.
Qed.

Lemma add_author_unfold m a m' :
  add_author m a = Ret m' ->
  let M := ins_list m (author_list (length (m_authors m) + 1) a) in
  let M' := match aget (m_header M) "authors" with
            | Some (AStr s) => insert_string_attr M "authors" (s ++ ", " ++ spec_fullname a)%string
            | _ => insert_string_attr M "authors" (spec_fullname a)
            end in
  m' = with_authors M' (m_authors M' ++ [a]).
Proof.
  unfold add_author. destruct (initials a) as [ini|] eqn:EI; [|discriminate].
  apply initials_spec in EI. subst ini. rewrite fullname_spec.
  intro H; injection H as <-.
  destruct (m_authors m) as [|a0 rest] eqn:EA.
  - change (length (@nil author) + 1) with 1.
    cbn zeta.
    match goal with |- context[dec (length (m_authors ?x) + 1)] =>
      replace (m_authors x) with (@nil author) end.
    2:{ symmetry. etransitivity; [|exact EA].
        exact (proj1 (proj2 (proj2 (proj2 (ins_list_frame (author_list1 a) m))))). }
    unfold ins_list, author_list, author_list1, author_list_n.
    cbn [Nat.eqb app fold_left fst snd insert_string_opt length Nat.add]. reflexivity.
  - rewrite EA. unfold author_list.
    replace (length (a0 :: rest) + 1 =? 1) with false by (symmetry; apply Nat.eqb_neq; simpl; lia).
    unfold ins_list, author_list_n.
    cbn [app fold_left fst snd insert_string_opt length]. reflexivity.
Qed.

Lemma author_list_free n a : Forall (fun e => free_key (fst e)) (author_list n a).
Proof.
  unfold author_list. apply Forall_app. split.
  - destruct (Nat.eqb n 1); [|constructor]. repeat constructor; discriminate.
  - repeat constructor; discriminate.
Qed.

Lemma add_author_frame m a m' :
  add_author m a = Ret m' ->
  m_job m' = m_job m /\ m_doc m' = m_doc m /\ m_default m' = m_default m /\
  m_authors m' = m_authors m ++ [a] /\ m_safe m' = m_safe m /\ m_embedded m' = m_embedded m /\
  m_doctype m' = m_doctype m.
Proof.
  intro H. apply add_author_unfold in H. cbn zeta in H.
  pose proof (ins_list_frame (author_list (length (m_authors m) + 1) a) m) as [F1 [F2 [F3 [F4 [F5 [F6 F7]]]]]].
  subst m'. set (M := ins_list _ _) in *. clearbody M.
  destruct (aget (m_header M) "authors") as [[s|x]|];
    cbn [with_authors insert_string_attr with_header m_job m_doc m_default m_authors m_safe m_embedded m_doctype];
    repeat split; congruence.
Qed.

Lemma add_author_header m a m' k :
  add_author m a = Ret m' ->
  aget (m_header m') k =
  if String.eqb "authors" k then
    Some (AStr (match aget (m_header m) "authors" with
                | Some (AStr s) => (s ++ ", " ++ spec_fullname a)%string
                | _ => spec_fullname a end))
  else match author_val (length (m_authors m) + 1) a k with
       | Some v => Some (AStr v)
       | None => aget (m_header m) k
       end.
Proof.
  intro H. apply add_author_unfold in H. cbn zeta in H.
  set (M := ins_list _ _) in *.
  assert (HM : forall k', aget (m_header M) k' =
     match author_val (length (m_authors m) + 1) a k' with
       | Some v => Some (AStr v)
       | None => aget (m_header m) k'
       end).
  { intro k'. apply ins_list_header; [apply author_list_free|apply author_list_nodup]. }
  assert (Hn : forall n, author_val n a "authors" = None).
  { intro n. destruct (author_val n a "authors") as [v|] eqn:E; [|reflexivity].
    apply author_val_spec in E. inversion E. }
  assert (HA : aget (m_header M) "authors" = aget (m_header m) "authors").
  { rewrite HM, Hn. reflexivity. }
  clearbody M. rewrite HA in H. subst m'. cbn [m_header with_authors].
  destruct (aget (m_header m) "authors") as [[s|x]|];
    rewrite ins_str by (intro C; discriminate C);
    (destruct (String.eqb "authors" k); [reflexivity|apply HM]).
Qed.

(** ** Histories *)
Lemma run_app m o1 o2 :
  run m (o1 ++ o2) = match run m o1 with Ret m' => run m' o2 | Panic => Panic end.
Proof.
  revert m; induction o1 as [|o o1 IH]; intro m; simpl; [reflexivity|].
  destruct (step m o); [apply IH|reflexivity].
Qed.

Record agrees (s : job_settings) (h : list op) (m : meta) : Prop := {
  ag_job : m_job m = m_job (from_settings s);
  ag_default : m_default m = default_attrs;
  ag_safe : m_safe m = js_safe s;
  ag_embedded : m_embedded m = js_embedded s;
  ag_doctype : spec_doctype s h (m_doctype m);
  ag_authors : length (m_authors m) = spec_authors h;
  ag_header : forall k, spec_header s h k (aget (m_header m) k);
  ag_body : forall k, spec_body h k (aget (m_doc m) k)
}.

Lemma agrees_init s : agrees s [] (from_settings s).
Proof.
  pose proof (SD_init s) as SD.
  constructor; try reflexivity.
  - unfold from_settings. destruct (js_doctype s); reflexivity.
  - unfold from_settings. destruct (js_doctype s); reflexivity.
  - unfold from_settings. destruct (js_doctype s); reflexivity.
  - unfold from_settings. destruct (js_doctype s); exact SD.
  - unfold from_settings. destruct (js_doctype s); reflexivity.
  - intro k. unfold from_settings. destruct (js_doctype s) as [d|] eqn:E.
    + rewrite set_doctype_header. destruct (String.eqb "doctype" k) eqn:Ek.
      * apply String.eqb_eq in Ek; subst k. apply SH_init_dt. exact E.
      * apply String.eqb_neq in Ek. simpl. apply SH_init. congruence.
    + simpl. apply SH_init. intros _. exact E.
  - intro k. unfold from_settings. destruct (js_doctype s); apply SB_init.
Qed.

Lemma spec_doctype_fun s h d d' : spec_doctype s h d -> spec_doctype s h d' -> d = d'.
Proof.
  intro H; revert d'; induction H; intros d2 H2; inversion H2; subst; auto;
    try congruence;
    try match goal with H : forall v, OHeader _ _ <> _ |- _ => exfalso; eapply H; reflexivity end;
    try match goal with H1 : spec_names_doctype ?v _, H2 : forall d', ~ spec_names_doctype ?v d' |- _ =>
          exfalso; eapply H2; exact H1 end.
  - unfold spec_names_doctype in *. subst. destruct d, d2; congruence.
Qed.

Lemma accepts_agree s h m k v :
  agrees s h m -> (header_accepts m k v <-> spec_header_accepts s h k v).
Proof.
  intros A. unfold header_accepts, spec_header_accepts. pose proof (ag_doctype _ _ _ A) as D.
  split; intros [H1 [H2 [H3 H4]]]; repeat split; try apply H2; auto; intro Hb; specialize (H4 Hb).
  - rewrite <- H4. exact D.
  - eapply spec_doctype_fun; eauto.
Qed.

Lemma agrees_step s h m o m' : agrees s h m -> step m o = Ret m' -> agrees s (o :: h) m'.
Proof.
  intros A S. destruct o as [k v|k v|a|]; simpl in S.
  - injection S as <-.
    pose proof (insert_header_frame m k v) as [F1 [F2 [F3 [F4 [F5 F6]]]]].
    pose proof (insert_header_accept_iff m k v) as AI.
    rewrite (accepts_agree _ _ _ _ _ A) in AI.
    destruct (snd (insert_header_attr m k v)) eqn:ES.
    + pose proof (insert_header_accepted m k v ES) as [G [D1 D2]].
      constructor; try (first [rewrite F1; apply A | rewrite F3; apply A | rewrite F5; apply A | rewrite F6; apply A]).
      * destruct (String.eqb k "doctype") eqn:EK.
        -- apply String.eqb_eq in EK; subst k. apply SD_set. apply D2. reflexivity.
        -- apply String.eqb_neq in EK. rewrite D1 by exact EK. apply SD_other.
           ++ intros v' C. congruence.
           ++ apply A.
      * rewrite F4. apply A.
      * intro k'. rewrite G. destruct (String.eqb k k') eqn:E1.
        -- apply String.eqb_eq in E1; subst k'. apply SH_set. tauto.
        -- apply String.eqb_neq in E1.
           match goal with |- spec_header _ _ _ (if ?c then _ else _) => destruct c eqn:EO end.
           ++ apply opposite_bool in EO. eapply SH_forget; [tauto|exact EO].
           ++ apply SH_other; [exact E1| |apply A]. rewrite <- opposite_bool. congruence.
      * intro k'. rewrite F2. apply SB_header. apply A.
    + rewrite (insert_header_rejected m k v ES).
      assert (NA : ~ spec_header_accepts s h k v) by (rewrite <- AI; congruence).
      constructor; try apply A.
      * destruct (String.eqb k "doctype") eqn:EK.
        -- apply String.eqb_eq in EK; subst k. apply SD_bad; [|apply A].
           intros d Hd. apply NA. repeat split.
           ++ unfold spec_job_only. simpl. intuition discriminate.
           ++ discriminate.
           ++ discriminate.
           ++ intros [C|C]; discriminate C.
           ++ intros _. exists d. exact Hd.
           ++ unfold spec_book_only. simpl. intuition discriminate.
        -- apply String.eqb_neq in EK. apply SD_other; [congruence|apply A].
      * intro k'. apply SH_rejected; [exact NA|apply A].
      * intro k'. apply SB_header. apply A.
  - injection S as <-.
    pose proof (insert_doc_frame m k v) as [F1 [F2 [F3 [F4 [F5 [F6 F7]]]]]].
    pose proof (insert_doc_accept_iff m k v) as AI.
    destruct (snd (insert_doc_attr m k v)) eqn:ES.
    + pose proof (insert_doc_accepted m k v ES) as G.
      constructor; try (first [rewrite F1; apply A | rewrite F3; apply A | rewrite F5; apply A | rewrite F6; apply A]).
      * rewrite F7. apply SD_other; [congruence|apply A].
      * rewrite F4. apply A.
      * intro k'. rewrite F2. apply SH_body. apply A.
      * intro k'. rewrite G. destruct (String.eqb k k') eqn:E1.
        -- apply String.eqb_eq in E1; subst k'. apply SB_set. tauto.
        -- apply String.eqb_neq in E1.
           match goal with |- spec_body _ _ (if ?c then _ else _) => destruct c eqn:EO end.
           ++ apply opposite_bool in EO. eapply SB_forget; [tauto|exact EO].
           ++ apply SB_other; [exact E1| |apply A]. rewrite <- opposite_bool. congruence.
    + rewrite (insert_doc_rejected m k v ES).
      assert (NA : ~ spec_body_accepts k v) by (rewrite <- AI; congruence).
      constructor; try apply A.
      * apply SD_other; [congruence|apply A].
      * intro k'. apply SH_body. apply A.
      * intro k'. apply SB_rejected; [exact NA|apply A].
  - pose proof (add_author_frame m a m' S) as [F1 [F2 [F3 [F4 [F5 [F6 F7]]]]]].
    constructor; try (first [rewrite F1; apply A | rewrite F3; apply A | rewrite F5; apply A | rewrite F6; apply A]).
    + rewrite F7. apply SD_other; [congruence|apply A].
    + rewrite F4, app_length. unfold spec_authors. simpl.
      rewrite (ag_authors _ _ _ A). unfold spec_authors. lia.
    + intro k. rewrite (add_author_header m a m' k S). rewrite (ag_authors _ _ _ A).
      destruct (String.eqb "authors" k) eqn:EK.
      * apply String.eqb_eq in EK; subst k. pose proof (ag_header _ _ _ A "authors") as HA.
        destruct (aget (m_header m) "authors") as [[l|x]|].
        -- apply SH_authors_more. exact HA.
        -- eapply SH_authors_first; [exact HA|discriminate].
        -- eapply SH_authors_first; [exact HA|discriminate].
      * apply String.eqb_neq in EK.
        destruct (author_val (spec_authors h + 1) a k) as [v|] eqn:EV.
        -- apply SH_author. apply author_val_spec. exact EV.
        -- apply SH_author_other; [|congruence|apply A].
           intros v Hv. apply author_val_spec in Hv. congruence.
    + intro k. rewrite F2. apply SB_author. apply A.
  - injection S as <-. constructor; try apply A.
    + apply SD_other; [congruence|apply A].
    + intro k. apply SH_clear. apply A.
    + intro k. apply SB_clear.
Qed.

Lemma agrees_run s ops m : run (from_settings s) ops = Ret m -> agrees s (rev ops) m.
Proof.
  revert m; induction ops as [|o ops IH] using rev_ind; intros m H.
  - injection H as <-. apply agrees_init.
  - rewrite run_app in H. rewrite rev_app_distr. simpl.
    destruct (run (from_settings s) ops) as [m0|] eqn:E; [|discriminate].
    simpl in H. destruct (step m0 o) as [m1|] eqn:ES; [|discriminate].
    injection H as <-. eapply agrees_step; [apply IH; reflexivity|exact ES].
Qed.

(** the specification relations are functions *)
Lemma spec_author_attr_fun n a k v v' :
  spec_author_attr n a k v -> spec_author_attr n a k v' -> v = v'.
Proof. rewrite <- !author_val_spec. congruence. Qed.

Lemma spec_opposite_neq k k' : spec_opposite k k' -> k <> k'.
Proof. intros [[-> ->]|[-> ->]]; discriminate. Qed.

Lemma spec_header_fun s h k r r' : spec_header s h k r -> spec_header s h k r' -> r = r'.
Proof.
  intro H; revert r'; induction H; intros r2 H2; inversion H2; subst;
    try reflexivity; try congruence; try contradiction; auto;
    try (match goal with H : spec_opposite _ _ |- _ => apply spec_opposite_neq in H; congruence end);
    try (match goal with H : ?k = ?k -> _ |- _ => specialize (H eq_refl); congruence end);
    try (match goal with Ha : spec_author_attr _ _ "authors" _ |- _ => inversion Ha end);
    try (exfalso; match goal with Hn : forall v, ~ spec_author_attr _ _ _ v, Ha : spec_author_attr _ _ _ _ |- _ =>
           eapply Hn; exact Ha end).
  - do 2 f_equal. eapply spec_author_attr_fun; eauto.
  - match goal with IH : forall r', spec_header _ _ "authors" r' -> _, H : spec_header _ _ "authors" _ |- _ =>
      specialize (IH _ H) end. congruence.
  - match goal with IH : forall r', spec_header _ _ "authors" r' -> _, H : spec_header _ _ "authors" _ |- _ =>
      specialize (IH _ H) end. exfalso. subst. match goal with Hl : forall l, _ <> Some (AStr l) |- _ => eapply Hl; reflexivity end.
  - match goal with IH : forall r', spec_header _ _ "authors" r' -> _, H : spec_header _ _ "authors" _ |- _ =>
      specialize (IH _ H) end. exfalso. subst. match goal with Hl : forall l, _ <> Some (AStr l) |- _ => eapply Hl; reflexivity end.
Qed.

Lemma spec_body_fun h k r r' : spec_body h k r -> spec_body h k r' -> r = r'.
Proof.
  intro H; revert r'; induction H; intros r2 H2; inversion H2; subst;
    try reflexivity; try congruence; try contradiction; auto;
    try (match goal with H : spec_opposite _ _ |- _ => apply spec_opposite_neq in H; congruence end).
Qed.

(** ** Lookups *)
Lemma step_job m o m' : step m o = Ret m' -> m_job m' = m_job m.
Proof.
  destruct o as [k v|k v|a|]; simpl; intro H; try (injection H as <-).
  - apply insert_header_frame.
  - apply insert_doc_frame.
  - apply add_author_frame in H. apply H.
  - reflexivity.
Qed.
Lemma run_job m ops m' : run m ops = Ret m' -> m_job m' = m_job m.
Proof.
  revert m; induction ops as [|o ops IH]; intros m H; simpl in H; [injection H as <-; reflexivity|].
  destruct (step m o) as [m1|] eqn:E; [|discriminate]. rewrite (IH _ H). eapply step_job; eauto.
Qed.

Definition derivedb (k : string) : bool :=
  String.eqb k "doctype-article" || String.eqb k "doctype-book" || String.eqb k "doctype-inline"
  || String.eqb k "doctype-manpage".
Lemma derivedb_spec k : derivedb k = false <-> ~ spec_derived k.
Proof.
  unfold derivedb, spec_derived. rewrite !orb_false_iff, !String.eqb_neq. simpl. intuition congruence.
Qed.
Lemma get_plain m k :
  ~ spec_derived k ->
  get m k = match aget (m_job m) k with
       | Some j =>
           if ja_readonly j then Some (ja_value j)
           else match resolve_attr m k with Some v => Some v | None => Some (ja_value j) end
       | None =>
           if String.eqb k "doctitle" then
             match resolve_attr m "doctitle" with
             | Some v => Some v
             | None => resolve_attr m "_asciidork_derived_doctitle"
             end
           else resolve_attr m k
       end.
Proof.
  intro H. apply derivedb_spec in H. unfold derivedb in H. rewrite !orb_false_iff in H.
  destruct H as [[[H1 H2] H3] H4]. unfold get. rewrite H1, H2, H3, H4. reflexivity.
Qed.

Lemma from_settings_job s k : aget (m_job (from_settings s)) k = spec_job s k.
Proof.
  assert (E : m_job (from_settings s) =
    job_insert_unchecked (job_insert_unchecked (job_insert_unchecked
      (job_insert_unchecked (js_job s) "doctype"
        (match js_doctype s with Some d => readonly (AStr (doctype_str d)) | None => modifiable (AStr "article") end))
      (safe_mode_flag (js_safe s)) (readonly (ABool true)))
      "safe-mode-level" (readonly (AStr (safe_mode_level (js_safe s)))))
      "safe-mode-name" (readonly (AStr (safe_mode_name (js_safe s))))).
  { unfold from_settings. destruct (js_doctype s); reflexivity. }
  rewrite E. unfold spec_job, job_insert_unchecked.
  destruct (String.eqb k "doctype") eqn:E1.
  { apply String.eqb_eq in E1; subst k.
    rewrite !aget_aput_other by (first [discriminate|destruct (js_safe s); discriminate]).
    rewrite aget_aput_same. reflexivity. }
  destruct (String.eqb k "safe-mode-name") eqn:E2.
  { apply String.eqb_eq in E2; subst k. rewrite aget_aput_same. destruct (js_safe s); reflexivity. }
  destruct (String.eqb k "safe-mode-level") eqn:E3.
  { apply String.eqb_eq in E3; subst k. rewrite aget_aput_other by discriminate.
    rewrite aget_aput_same. destruct (js_safe s); reflexivity. }
  apply String.eqb_neq in E1, E2, E3. rewrite !(aget_aput_other _ "safe-mode-name"), !(aget_aput_other _ "safe-mode-level") by assumption.
  fold (safe_mode_flag (js_safe s)).
  destruct (String.eqb k (safe_mode_flag (js_safe s))) eqn:E4.
  { apply String.eqb_eq in E4; subst k. apply aget_aput_same. }
  apply String.eqb_neq in E4. rewrite !aget_aput_other by assumption. reflexivity.
Qed.

Lemma readonly_wins m k j :
  ~ spec_derived k -> aget (m_job m) k = Some j -> ja_readonly j = true -> get m k = Some (ja_value j).
Proof. intros D H R. rewrite get_plain by exact D. rewrite H, R. reflexivity. Qed.

Lemma remove_attr_job m k k' : k' <> k -> aget (m_job (remove_attr m k)) k' = aget (m_job m) k'.
Proof. intro H. simpl. apply aget_aremove_other. exact H. Qed.

Lemma clone_job m k :
  ~ In k ["toc"; "toc-placement"; "toc-position"; "showtitle"; "notitle"]%string ->
  aget (m_job (clone_for_cell m)) k = aget (m_job m) k.
Proof.
  intro H. unfold clone_for_cell. simpl in H.
  rewrite !remove_attr_job by (intro C; apply H; subst; tauto). reflexivity.
Qed.

Lemma resolve_layers m k :
  resolve_attr m k = spec_layers (aget (m_doc m) k) (aget (m_header m) k) (aget (m_default m) k).
Proof. unfold resolve_attr, spec_layers. destruct (aget (m_doc m) k), (aget (m_header m) k); reflexivity. Qed.

Lemma derived_get m d :
  get m ("doctype-" ++ doctype_str d)%string = if doctype_eqb (m_doctype m) d then Some (ABool true) else None.
Proof. destruct d; reflexivity. Qed.

(** ** job insertion *)
Lemma insert_job_get m k j k' :
  legal_value k (ja_value j) = true ->
  aget (m_job (fst (insert_job_attr m k j))) k' =
  if String.eqb k k' then Some j
  else if (String.eqb k "showtitle" && String.eqb k' "notitle")
          || (String.eqb k "notitle" && String.eqb k' "showtitle") then None
  else aget (m_job m) k'.
Proof.
  intro L. unfold insert_job_attr, job_insert, validate_attr. rewrite L.
  destruct (String.eqb k "showtitle") eqn:E1; [|destruct (String.eqb k "notitle") eqn:E2]; simpl;
    destruct (String.eqb k k') eqn:E; try reflexivity; apply String.eqb_neq in E;
    rewrite ?aget_aremove_other by congruence.
  - apply String.eqb_eq in E1; subst k.
    destruct (String.eqb k' "notitle") eqn:E3; simpl.
    + apply String.eqb_eq in E3 as ->. apply aget_aremove_same.
    + apply String.eqb_neq in E3. apply aget_aremove_other. exact E3.
  - apply String.eqb_eq in E2; subst k.
    destruct (String.eqb k' "showtitle") eqn:E3; simpl.
    + apply String.eqb_eq in E3 as ->. apply aget_aremove_same.
    + apply String.eqb_neq in E3. apply aget_aremove_other. exact E3.
  - reflexivity.
Qed.

Lemma lockdown_data_uri m :
  m_safe m = Secure ->
  aget (m_job (lockdown_secure_mode m)) "data-uri" = Some (readonly (ABool false)).
Proof.
  intro S. unfold lockdown_secure_mode. rewrite S. cbn zeta.
  repeat match goal with
  | |- context[if is_unset ?x ?y then _ else _] => destruct (is_unset x y)
  end;
  rewrite ?insert_job_get by reflexivity; reflexivity.
Qed.

(** ** title attributes *)
Definition title_excl {A} (m : amap A) : Prop := aget m "showtitle" = None \/ aget m "notitle" = None.

Lemma excl_insert m k v : title_excl m -> title_excl (fst (attrs_insert m k v)).
Proof.
  intro H. destruct (legal_value k v) eqn:L.
  - unfold title_excl. rewrite !(proj2 (attrs_insert_ok m k v L)).
    destruct (String.eqb k "showtitle") eqn:E1.
    { apply String.eqb_eq in E1; subst k. right. reflexivity. }
    destruct (String.eqb k "notitle") eqn:E2.
    { apply String.eqb_eq in E2; subst k. left. reflexivity. }
    simpl. exact H.
  - rewrite attrs_insert_bad by exact L. exact H.
Qed.
Lemma excl_ins_opt m k v : title_excl (m_header m) -> title_excl (m_header (insert_string_opt m k v)).
Proof. intro H. destruct v; [apply excl_insert|]; exact H. Qed.
Lemma excl_ins_list l m : title_excl (m_header m) -> title_excl (m_header (ins_list m l)).
Proof.
  revert m; induction l as [|[k v] l IH]; intros m H; [exact H|].
  apply (IH (insert_string_opt m k v)). apply excl_ins_opt. exact H.
Qed.
Lemma excl_step m o m' :
  title_excl (m_header m) /\ title_excl (m_doc m) -> step m o = Ret m' ->
  title_excl (m_header m') /\ title_excl (m_doc m').
Proof.
  intros [H1 H2] S. destruct o as [k v|k v|a|]; simpl in S; try (injection S as <-).
  - pose proof (insert_header_frame m k v) as [_ [F _]]. cbn zeta in F. rewrite F. split; [|exact H2].
    unfold insert_header_attr. destruct (mem k JOB_ONLY); [exact H1|].
    destruct (String.eqb k "doctype").
    { destruct (match av_str v with Some s => doctype_parse s | None => None end); [|exact H1].
      apply excl_insert. exact H1. }
    destruct (mem k book_only && negb (doctype_eqb (m_doctype m) Book)); [exact H1|].
    pose proof (excl_insert (m_header m) k v H1) as X.
    destruct (attrs_insert (m_header m) k v). exact X.
  - pose proof (insert_doc_frame m k v) as [_ [F _]]. cbn zeta in F. rewrite F. split; [exact H1|].
    unfold insert_doc_attr. destruct (mem k JOB_ONLY); [exact H2|]. destruct (mem k HEADER_ONLY); [exact H2|].
    pose proof (excl_insert (m_doc m) k v H2) as X.
    destruct (attrs_insert (m_doc m) k v). exact X.
  - pose proof (add_author_frame _ _ _ S) as [_ [F _]]. rewrite F. split; [|exact H2].
    apply add_author_unfold in S. cbn zeta in S. subst m'. cbn [m_header with_authors].
    pose proof (excl_ins_list (author_list (length (m_authors m) + 1) a) m H1) as X.
    set (M := ins_list _ _) in *. clearbody M.
    destruct (aget (m_header M) "authors") as [[s|x]|]; apply excl_insert; exact X.
  - split; [exact H1|left; reflexivity].
Qed.
Lemma excl_run m ops m' :
  title_excl (m_header m) /\ title_excl (m_doc m) -> run m ops = Ret m' ->
  title_excl (m_header m') /\ title_excl (m_doc m').
Proof.
  revert m; induction ops as [|o ops IH]; intros m H R; simpl in R; [injection R as <-; exact H|].
  destruct (step m o) as [m1|] eqn:E; [|discriminate]. eapply IH; [|exact R]. eapply excl_step; eauto.
Qed.
Lemma excl_job m k j : title_excl (m_job m) -> title_excl (m_job (fst (insert_job_attr m k j))).
Proof.
  intro H. destruct (legal_value k (ja_value j)) eqn:L.
  - unfold title_excl. rewrite !insert_job_get by exact L.
    destruct (String.eqb k "showtitle") eqn:E1.
    { apply String.eqb_eq in E1; subst k. right. reflexivity. }
    destruct (String.eqb k "notitle") eqn:E2.
    { apply String.eqb_eq in E2; subst k. left. reflexivity. }
    simpl. exact H.
  - unfold insert_job_attr, job_insert, validate_attr. rewrite L. simpl. exact H.
Qed.

(** ** doctype consistency *)
Definition dt_inv (m : meta) : Prop :=
  (aget (m_header m) "doctype" = Some (AStr (doctype_str (m_doctype m))) \/
   (aget (m_header m) "doctype" = None /\ m_doctype m = Article)) /\
  aget (m_doc m) "doctype" = None /\ m_default m = default_attrs.

Lemma dt_step m o m' : dt_inv m -> step m o = Ret m' -> dt_inv m'.
Proof.
  intros [H1 [H2 H3]] S. destruct o as [k v|k v|a|]; simpl in S; try (injection S as <-).
  - pose proof (insert_header_frame m k v) as [_ [F2 [F3 _]]]. cbn zeta in *.
    unfold dt_inv. rewrite F2, F3. split; [|split; assumption].
    destruct (snd (insert_header_attr m k v)) eqn:ES.
    + pose proof (insert_header_accepted m k v ES) as [G [D1 D2]]. rewrite G.
      destruct (String.eqb k "doctype") eqn:EK.
      * apply String.eqb_eq in EK; subst k. left. rewrite (D2 eq_refl) at 1.
        destruct (m_doctype _); reflexivity.
      * apply String.eqb_neq in EK. rewrite D1 by exact EK.
        rewrite (proj2 (String.eqb_neq "doctype" "notitle")) by discriminate.
        rewrite (proj2 (String.eqb_neq "doctype" "showtitle")) by discriminate.
        rewrite !andb_false_r. exact H1.
    + rewrite (insert_header_rejected m k v ES). exact H1.
  - pose proof (insert_doc_frame m k v) as [_ [F2 [F3 [_ [_ [_ F7]]]]]]. cbn zeta in *.
    unfold dt_inv. rewrite F2, F3, F7. split; [exact H1|]. split; [|exact H3].
    destruct (snd (insert_doc_attr m k v)) eqn:ES.
    + rewrite (insert_doc_accepted m k v ES). apply insert_doc_accept_iff in ES as [_ [HO _]].
      destruct (String.eqb k "doctype") eqn:EK.
      * apply String.eqb_eq in EK; subst k. exfalso. apply HO. unfold spec_header_only. simpl. tauto.
      * rewrite (proj2 (String.eqb_neq "doctype" "notitle")) by discriminate.
        rewrite (proj2 (String.eqb_neq "doctype" "showtitle")) by discriminate.
        rewrite !andb_false_r. exact H2.
    + rewrite (insert_doc_rejected m k v ES). exact H2.
  - pose proof (add_author_frame _ _ _ S) as [_ [F2 [F3 [_ [_ [_ F7]]]]]].
    unfold dt_inv. rewrite F2, F3, F7. split; [|split; assumption].
    rewrite (add_author_header _ _ _ "doctype" S). cbn [String.eqb Ascii.eqb Bool.eqb].
    assert (author_val (length (m_authors m) + 1) a "doctype" = None) as ->.
    { destruct (author_val _ a "doctype") as [w|] eqn:E; [|reflexivity].
      apply author_val_spec in E. inversion E. }
    exact H1.
  - split; [exact H1|]. split; [reflexivity|exact H3].
Qed.
Lemma dt_run m ops m' : dt_inv m -> run m ops = Ret m' -> dt_inv m'.
Proof.
  revert m; induction ops as [|o ops IH]; intros m H R; simpl in R; [injection R as <-; exact H|].
  destruct (step m o) as [m1|] eqn:E; [|discriminate]. eapply IH; [|exact R]. eapply dt_step; eauto.
Qed.
Lemma dt_init s : dt_inv (from_settings s).
Proof.
  unfold from_settings, dt_inv. destruct (js_doctype s) as [d|].
  - rewrite set_doctype_header. repeat split; try reflexivity. left. reflexivity.
  - repeat split; try reflexivity. right. split; reflexivity.
Qed.

Lemma doctype_consistent s ops m :
  js_doctype s = None -> run (from_settings s) ops = Ret m ->
  get m "doctype" = Some (AStr (doctype_str (m_doctype m))).
Proof.
  intros E R. pose proof (dt_run _ _ _ (dt_init s) R) as [H1 [H2 H3]].
  rewrite get_plain by (unfold spec_derived; simpl; intuition discriminate).
  rewrite (run_job _ _ _ R), from_settings_job. unfold spec_job. rewrite E. cbn [String.eqb Ascii.eqb Bool.eqb].
  cbn [ja_readonly modifiable ja_value]. unfold resolve_attr. rewrite H2, H3.
  destruct H1 as [-> | [-> ->]]; reflexivity.
Qed.

Lemma no_doctype_op_keeps s ops m :
  run (from_settings s) ops = Ret m -> (forall v, ~ In (OHeader "doctype" v) ops) ->
  m_doctype m = m_doctype (from_settings s).
Proof.
  intro R. generalize dependent (from_settings s).
  induction ops as [|o ops IH]; intros m0 R N; simpl in R; [injection R as <-; reflexivity|].
  destruct (step m0 o) as [m1|] eqn:E; [|discriminate].
  rewrite (IH _ R) by (intros v C; apply (N v); right; exact C).
  destruct o as [k v|k v|a|]; simpl in E; try (injection E as <-).
  - destruct (snd (insert_header_attr m0 k v)) eqn:ES.
    + apply (proj1 (proj2 (insert_header_accepted m0 k v ES))). intros ->. apply (N v). left. reflexivity.
    + rewrite (insert_header_rejected _ _ _ ES). reflexivity.
  - apply insert_doc_frame.
  - apply add_author_frame in E. apply E.
  - reflexivity.
Qed.

Lemma default_documented k :
  (forall v, In (k, v) documented_builtins -> aget default_attrs k = Some (AStr v)) /\
  (~ In k (map fst documented_builtins) -> aget default_attrs k = None).
Proof.
  split.
  - intros v H. cbn [In documented_builtins] in H.
    repeat (destruct H as [H|H]; [injection H as <- <-; vm_compute; reflexivity|]). destruct H.
  - intro N.
    assert (F : forallb (fun e => existsb (String.eqb (fst e)) (map fst documented_builtins)) default_attrs = true)
      by (vm_compute; reflexivity).
    rewrite forallb_forall in F.
    assert (G : forall (l : amap attr_value), (forall e, In e l -> fst e <> k) -> aget l k = None).
    { induction l as [|[a b] l IH]; intro Q; [reflexivity|]. cbn [aget].
      destruct (String.eqb_spec a k) as [E|_]; [destruct (Q (a, b)); [left; reflexivity|exact E]|].
      apply IH. intros e He. apply Q. right. exact He. }
    apply G. intros e He E. specialize (F e He). rewrite existsb_exists in F.
    destruct F as [x [Hx Ex]]. apply String.eqb_eq in Ex. apply N. rewrite <- E, Ex. exact Hx.
Qed.

Lemma remove_attr_header m k k' : k' <> k -> aget (m_header (remove_attr m k)) k' = aget (m_header m) k'.
Proof. intro H. simpl. apply aget_aremove_other. exact H. Qed.
Lemma remove_attr_doc m k k' : k' <> k -> aget (m_doc (remove_attr m k)) k' = aget (m_doc m) k'.
Proof. intro H. simpl. apply aget_aremove_other. exact H. Qed.
Lemma clone_doctype m :
  aget (m_job m) "doctype" = None -> aget (m_doc m) "doctype" = None ->
  get (clone_for_cell m) "doctype" = Some (AStr "article").
Proof.
  intros J B. rewrite get_plain by (unfold spec_derived; simpl; intuition discriminate).
  rewrite clone_job, J by (simpl; intuition discriminate).
  assert (N : String.eqb "doctype" "doctitle" = false) by reflexivity.
  unfold resolve_attr, clone_for_cell.
  rewrite !remove_attr_doc, !remove_attr_header by discriminate.
  cbn [m_doc set_doctype with_header with_doctype m_header]. rewrite B. reflexivity.
Qed.
