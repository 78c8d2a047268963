From Verif Require Import Base Text AttrsModel IncludeModel NormModel AttrRefsModel AttrRefsSpec AttrRefsProofs LexerModel DocinfoModel DocinfoSpec.
From Verif Require PathModel.

(** ** which files *)
Lemma is_set_spec m k : is_set m k = true <-> present m k.
Proof. unfold is_set, present. destruct (get m k); split; try discriminate; eauto. intros [v H]; discriminate. Qed.
Lemma is_set_false m k : is_set m k = false <-> ~ present m k.
Proof. rewrite <- is_set_spec. destruct (is_set m k); split; congruence. Qed.

Lemma word_spec m w : In w (docinfo_attributes m) <-> word m w.
Proof.
  unfold docinfo_attributes. split.
  - destruct (get_str m "docinfo") as [[|c r]|] eqn:E.
    + destruct (is_set m "docinfo2") eqn:E2; [apply is_set_spec in E2; intros [<-|[<-|[]]]; apply W_docinfo2; auto; now right|apply is_set_false in E2].
      destruct (is_set m "docinfo1") eqn:E1; [apply is_set_spec in E1; intros [<-|[]]; apply W_docinfo1; auto; now right|apply is_set_false in E1].
      intros [<-|[]]. now apply W_empty.
    + intros H. apply filter_In in H as [H N]. apply in_map_iff in H as (part & <- & H). apply split_by_spec in H.
      eapply W_listed; eauto using trim_spec; [discriminate|]. intros Z. rewrite Z in N. discriminate.
    + destruct (is_set m "docinfo2") eqn:E2; [apply is_set_spec in E2; intros [<-|[<-|[]]]; apply W_docinfo2; auto; now left|apply is_set_false in E2].
      destruct (is_set m "docinfo1") eqn:E1; [apply is_set_spec in E1; intros [<-|[]]; apply W_docinfo1; auto; now left|]. intros [].
  - intros H. destruct H as [v part w Ev NV P T NW|w NT P W|NT P2 P1|Ev P2 P1].
    + rewrite Ev. destruct v as [|c r]; [congruence|]. apply filter_In. split.
      * apply in_map_iff. exists part. split; [now apply trim_unique|]. now apply split_by_spec.
      * destruct w; [congruence|reflexivity].
    + apply is_set_spec in P. rewrite P. destruct NT as [-> | ->]; destruct W as [-> | ->]; simpl; auto.
    + apply is_set_false in P2. apply is_set_spec in P1. rewrite P1, P2. destruct NT as [-> | ->]; simpl; auto.
    + apply is_set_false in P2. apply is_set_false in P1. rewrite P1, P2, Ev. simpl; auto.
Qed.

Lemma any_spec m k1 k2 : existsb (fun v => bytes_eqb v k1 || bytes_eqb v k2) (docinfo_attributes m) = true <-> word m k1 \/ word m k2.
Proof.
  rewrite existsb_exists. split.
  - intros (v & I & H). apply word_spec in I. apply orb_prop in H as [H|H]; apply bytes_eqb_eq in H as ->; auto.
  - intros [H|H]; apply word_spec in H; eexists; (split; [exact H|]); rewrite (proj2 (bytes_eqb_eq _ _) eq_refl); auto using orb_true_r.
Qed.

Definition qualifier (p : place) : bytes := match p with Head => [] | Header => $"-header" | Footer => $"-footer" end.
Lemma shared_name_spec m p f : shared_name m p f <-> f = docinfo_filename m (qualifier p).
Proof.
  unfold shared_name, suffix, docinfo_filename. split.
  - intros (s & [E|[E ->]] & ->); rewrite E; reflexivity.
  - intros ->. destruct (get_str m "outfilesuffix") as [s|] eqn:E; eexists; (split; [|reflexivity]); auto.
Qed.
Lemma private_name_spec m p f : private_name m p f <-> exists x r, get_str m "docname" = Some (x :: r) /\ f = (x :: r) ++ $"-" ++ docinfo_filename m (qualifier p).
Proof.
  unfold private_name. split.
  - intros ([|x r] & s & E & N & S & ->); [congruence|]. apply shared_name_spec in S as ->. eauto.
  - intros (x & r & E & ->). exists (x :: r), (docinfo_filename m (qualifier p)). repeat split; auto; [discriminate|]. now apply shared_name_spec.
Qed.

(** the files the code asks for *)
Definition asked (m : meta) (p : place) : list bytes :=
  (if existsb (fun v => bytes_eqb v ($"shared") || bytes_eqb v ($"shared" ++ $"-" ++ place_name p)) (docinfo_attributes m) then [docinfo_filename m (qualifier p)] else []) ++
  match get_str m "docname" with
  | Some (x :: r) => if existsb (fun v => bytes_eqb v ($"private") || bytes_eqb v ($"private" ++ $"-" ++ place_name p)) (docinfo_attributes m)
                     then [(x :: r) ++ $"-" ++ docinfo_filename m (qualifier p)] else []
  | _ => []
  end.
Lemma files_spec m p fs : files m p fs <-> fs = asked m p.
Proof.
  unfold files, asked, asks. split.
  - intros (a & c & -> & A & C). f_equal.
    + destruct A as [[A (f & F & ->)]|[A ->]]; rewrite <- any_spec in A.
      * rewrite A. now rewrite (proj1 (shared_name_spec _ _ _) F).
      * destruct (existsb _ _); congruence.
    + destruct C as [[C (f & F & ->)]|[C ->]].
      * apply private_name_spec in F as (x & r & E & ->). rewrite E. apply any_spec in C. now rewrite C.
      * destruct C as [C|C].
        -- rewrite <- any_spec in C. destruct (get_str m "docname") as [[|x r]|]; auto. destruct (existsb _ _); congruence.
        -- destruct (get_str m "docname") as [[|x r]|] eqn:E; auto. exfalso. apply C. eexists. apply private_name_spec. eauto.
  - intros ->. eexists _, _. split; [reflexivity|]. split.
    + destruct (existsb _ _) eqn:E.
      * left. apply any_spec in E. split; auto. eexists. split; [now apply shared_name_spec|reflexivity].
      * right. split; auto. rewrite <- any_spec. congruence.
    + destruct (get_str m "docname") as [[|x r]|] eqn:D.
      * right. split; auto. right. intros (f & F). apply private_name_spec in F as (x & r & E & _). congruence.
      * destruct (existsb _ _) eqn:E.
        -- left. apply any_spec in E. split; auto. eexists. split; [apply private_name_spec; eauto|reflexivity].
        -- right. split; auto. left. rewrite <- any_spec. congruence.
      * right. split; auto. right. intros (f & F). apply private_name_spec in F as (x & r & E & _). congruence.
Qed.

(** ** lines *)
Lemma unix_lines_app l s : ~ In CR l -> unix_lines (l ++ s) = l ++ unix_lines s.
Proof.
  induction l as [|c l IH]; intros N; [reflexivity|]. cbn [app unix_lines].
  destruct (Ascii.eqb_spec c CR) as [->|_]; [destruct N; now left|]. rewrite IH; auto. intro; apply N; now right.
Qed.
Lemma unix_line l e s : lineless l -> line_end e -> (e = [CR] -> forall r, s <> LF :: r) -> unix_lines (l ++ e ++ s) = l ++ LF :: unix_lines s.
Proof.
  intros [NL NC] E C. rewrite unix_lines_app by auto. f_equal. destruct E as [->|[->| ->]]; [reflexivity|reflexivity|].
  cbn [app unix_lines]. replace (Ascii.eqb CR CR) with true by reflexivity. destruct s as [|d s]; [reflexivity|].
  destruct (Ascii.eqb_spec d LF) as [->|_]; [|reflexivity]. destruct (C eq_refl s eq_refl).
Qed.
Lemma lines_of_line l u : ~ In LF l -> lines_of (l ++ LF :: u) = l :: lines_of u.
Proof.
  intros N. unfold lines_of. rewrite split_byte_app by auto. pose proof (split_byte_nonnil LF u) as NN.
  destruct (split_byte LF u) as [|p ps]; [congruence|].
  change (last (l :: p :: ps) []) with (last (p :: ps) []). destruct (last (p :: ps) []); reflexivity.
Qed.
Lemma lines_of_last l : l <> [] -> ~ In LF l -> lines_of l = [l].
Proof. intros N NL. unfold lines_of. rewrite split_byte_one by auto. simpl. destruct l; congruence. Qed.
Lemma text_lines_fun s ls : text_lines s ls -> ls = lines_of (unix_lines s).
Proof.
  induction 1 as [|l N [NL NC]|l e s ls L E C H IH].
  - reflexivity.
  - rewrite <- (app_nil_r l) at 2. rewrite unix_lines_app by auto. cbn. rewrite app_nil_r. now rewrite lines_of_last.
  - rewrite unix_line by auto. rewrite lines_of_line by apply L. f_equal. exact IH.
Qed.
Lemma first_end s : (lineless s) \/ exists l e t, s = l ++ e ++ t /\ lineless l /\ line_end e /\ (e = [CR] -> forall r, t <> LF :: r).
Proof.
  induction s as [|c s IH]; [left; split; intros []|].
  destruct (Ascii.eqb_spec c LF) as [->|NL].
  { right. exists [], [LF], s. split; [reflexivity|]. split; [split; intros []|]. split; [now left|discriminate]. }
  destruct (Ascii.eqb_spec c CR) as [->|NC].
  { right. destruct s as [|d s].
    - exists [], [CR], []. split; [reflexivity|]. split; [split; intros []|]. split; [right; now right|]. intros _ r; discriminate.
    - destruct (Ascii.eqb_spec d LF) as [->|ND].
      + exists [], [CR; LF], s. split; [reflexivity|]. split; [split; intros []|]. split; [right; now left|discriminate].
      + exists [], [CR], (d :: s). split; [reflexivity|]. split; [split; intros []|]. split; [right; now right|]. intros _ r; congruence. }
  destruct IH as [[A B]|(l & e & t & -> & [A B] & E & C)].
  - left. split; intros [H|H]; congruence || auto.
  - right. exists (c :: l), e, t. split; [reflexivity|]. split; [split; intros [H|H]; congruence || auto|]. auto.
Qed.
Lemma text_lines_ex s : text_lines s (lines_of (unix_lines s)).
Proof.
  enough (exists ls, text_lines s ls) as [ls H] by (pose proof (text_lines_fun _ _ H); congruence).
  remember (length s) as n eqn:Q. revert s Q. induction n as [n IH] using lt_wf_ind. intros s ->.
  destruct (first_end s) as [L|(l & e & t & -> & L & E & C)].
  - destruct s as [|c s]; [exists []; constructor|]. exists [c :: s]. constructor; auto. discriminate.
  - destruct (IH (length t)) with (s := t) as [ls H]; auto.
    + rewrite !app_length. destruct E as [->|[->| ->]]; simpl; lia.
    + exists (l :: ls). constructor; auto.
Qed.

(** ** symbols *)
Lemma items_app x y : items (x ++ y) = items x ++ items y.
Proof. apply flat_map_app. Qed.
Lemma items_text ns t : items (append_docinfo_text ns t) = items ns ++ map IByte t.
Proof.
  destruct t as [|c t]; [cbn [map]; rewrite app_nil_r; destruct ns; reflexivity|].
  induction ns as [|n ns IH]; [cbn; now rewrite app_nil_r|].
  cbn [append_docinfo_text]. destruct n as [u|k].
  - destruct ns as [|n' ns].
    + cbn. rewrite !app_nil_r. now rewrite map_app.
    + change (items (DText u :: append_docinfo_text (n' :: ns) (c :: t))) with (map IByte u ++ items (append_docinfo_text (n' :: ns) (c :: t))). rewrite IH.
      change (items (DText u :: n' :: ns)) with (map IByte u ++ items (n' :: ns)). now rewrite app_assoc.
  - change (items (DSym k :: append_docinfo_text ns (c :: t))) with ([ISym k] ++ items (append_docinfo_text ns (c :: t))). rewrite IH.
    change (items (DSym k :: ns)) with ([ISym k] ++ items ns). now rewrite app_assoc.
Qed.

Lemma symbol_at_some s w k : symbol_at s = Some (w, k) -> w = writing k /\ exists r, s = w ++ r /\ (k = EmDash -> forall r', r <> $"-" ++ r').
Proof.
  unfold symbol_at, symbols. cbn [find fst].
  repeat match goal with |- context [if starts_with ?p s then _ else _] =>
    let E := fresh "E" in destruct (starts_with p s) eqn:E;
      [intros H; injection H as <- <-; split; [reflexivity|]; apply starts_with_spec in E as [r Q]; exists r; split; [exact Q|try discriminate]|] end; [|discriminate].
  intros _ r' ->. subst s. discriminate.
Qed.
Lemma symbol_at_none s : symbol_at s = None -> forall k r, s <> writing k ++ r.
Proof.
  intros H k r ->. unfold symbol_at in H.
  assert (I : In (writing k, k) symbols) by (destruct k; simpl; tauto).
  pose proof (find_none _ _ H _ I) as F. cbn [fst] in F.
  assert (T : starts_with (writing k) (writing k ++ r) = true) by (apply starts_with_spec; eauto). congruence.
Qed.
Lemma symbol_at_own k r : (k = EmDash -> forall r', r <> $"-" ++ r') -> symbol_at (writing k ++ r) = Some (writing k, k).
Proof.
  intros C. destruct k; try reflexivity.
  specialize (C eq_refl). destruct r as [|d r]; [reflexivity|]. unfold symbol_at, symbols. cbn -[Ascii.eqb].
  destruct (Ascii.eqb_spec "-"%char d) as [<-|N]; [destruct (C r eq_refl)|]. reflexivity.
Qed.
Fixpoint sread (fuel : nat) (s : bytes) : list item :=
  match fuel with
  | O => []
  | S f => match s with
           | [] => []
           | c :: r => match symbol_at s with Some (w, k) => ISym k :: sread f (skipn (length w) s) | None => IByte c :: sread f r end
           end
  end.
Lemma writing_pos k : 1 <= length (writing k).
Proof. destruct k; cbn; lia. Qed.
Lemma symbols_items : forall f ns pend s, length s <= f -> items (append_docinfo_symbols f ns pend s) = items ns ++ map IByte pend ++ sread f s.
Proof.
  induction f as [|f IH]; intros ns pend s L; cbn [append_docinfo_symbols sread].
  - destruct s; [|cbn in L; lia]. now rewrite items_text, app_nil_r.
  - destruct s as [|c r]; [now rewrite items_text, app_nil_r|]. destruct (symbol_at (c :: r)) as [[w k]|] eqn:E.
    + destruct (symbol_at_some _ _ _ E) as (-> & t & Q & _). rewrite IH.
      * rewrite items_app, items_text. cbn [map app items flat_map]. now rewrite <- !app_assoc.
      * rewrite Q in *. rewrite Text.skipn_len. rewrite app_length in L. pose proof (writing_pos k). lia.
    + rewrite IH by (cbn in L; lia). rewrite map_app, <- !app_assoc. reflexivity.
Qed.
Lemma sread_ex : forall f s, length s <= f -> symbols_read s (sread f s).
Proof.
  induction f as [|f IH]; intros s L; cbn [sread]; [destruct s; [constructor|cbn in L; lia]|].
  destruct s as [|c r]; [constructor|]. destruct (symbol_at (c :: r)) as [[w k]|] eqn:E.
  - destruct (symbol_at_some _ _ _ E) as (-> & t & Q & C). rewrite Q, Text.skipn_len. constructor; auto. apply IH.
    rewrite Q, app_length in L. pose proof (writing_pos k). lia.
  - constructor; [now apply symbol_at_none|]. apply IH. cbn in L. lia.
Qed.
Lemma sread_fun s its : symbols_read s its -> forall f, length s <= f -> its = sread f s.
Proof.
  induction 1 as [|k s its C H IH|c s its N H IH]; intros f L.
  - destruct f; reflexivity.
  - assert (P : 1 <= length (writing k ++ s)) by (rewrite app_length; pose proof (writing_pos k); lia).
    destruct f as [|f]; [lia|]. cbn [sread]. destruct (writing k ++ s) as [|d t] eqn:Q; [cbn in P; lia|]. rewrite <- Q, symbol_at_own by auto.
    rewrite Text.skipn_len. f_equal. apply IH. rewrite <- Q, app_length in L. pose proof (writing_pos k). lia.
  - destruct f as [|f]; [cbn in L; lia|]. cbn [sread]. destruct (symbol_at (c :: s)) as [[w k]|] eqn:E.
    + destruct (symbol_at_some _ _ _ E) as (-> & t & Q & _). destruct (N _ _ Q).
    + f_equal. apply IH. cbn in L. lia.
Qed.

(** ** references *)
Lemma replace_refs_step m f s : replace_refs m (S f) s =
  match front s with
  | Some (n, r) => let (v, d1) := one_ref m n in let (out, d2) := replace_refs m f r in (v ++ out, d1 || d2)
  | None => match s with [] => ([], false) | c :: t => let (out, d) := replace_refs m f t in (c :: out, d) end
  end.
Proof.
  unfold front. cbn [replace_refs]. destruct s as [|c t]; [reflexivity|]. destruct (Ascii.eqb c "{"%char); [|reflexivity].
  destruct (name_run t); [reflexivity|]. destruct (skipn _ t) as [|d r]; [reflexivity|]. destruct (Ascii.eqb d "}"%char); reflexivity.
Qed.
Definition drops (m : meta) : bool := match attr_missing m with DropLine => true | _ => false end.
Lemma missing_cases m :
  (attr_missing m = Drop /\ missing_value m ($"drop")) \/ (attr_missing m = DropLine /\ missing_value m ($"drop-line")) \/
  (attr_missing m = Keep /\ ~ missing_value m ($"drop") /\ ~ missing_value m ($"drop-line")).
Proof.
  unfold attr_missing, missing_value. destruct (get_str m "attribute-missing") as [v|]; [|right; right; repeat split; discriminate].
  destruct (bytes_eqb v ($"drop")) eqn:E1; [apply bytes_eqb_eq in E1 as ->; auto|].
  destruct (bytes_eqb v ($"drop-line")) eqn:E2; [apply bytes_eqb_eq in E2 as ->; auto|].
  right; right. split; auto. split; intros H; injection H as ->; rewrite (proj2 (bytes_eqb_eq _ _) eq_refl) in *; discriminate.
Qed.
Lemma drops_spec m : drops m = true <-> missing_value m ($"drop-line").
Proof.
  unfold drops. destruct (missing_cases m) as [[-> H]|[[-> H]|[-> [H H']]]]; split; try tauto; try discriminate.
  unfold missing_value in *. rewrite H. discriminate.
Qed.
Lemma one_ref_text m n v : has_text m n v -> one_ref m n = (v, false).
Proof. intros (s & E & ->). unfold one_ref. now rewrite E. Qed.
Lemma one_ref_lost m n : (forall x, ~ has_text m n x) -> exists v, one_ref m n = (v, drops m) /\ stands_for m n v.
Proof.
  intros N. unfold one_ref, drops, stands_for.
  assert (D : match get m (string_of_list_ascii n) with Some (AStr v) => False | _ => True end).
  { destruct (get m (string_of_list_ascii n)) as [[v|v]|] eqn:E; auto. apply (N (b v)). exists v. auto. }
  destruct (missing_cases m) as [[-> H]|[[-> H]|[-> [H H']]]];
    (eexists; split; [destruct (get m (string_of_list_ascii n)) as [[v|v]|]; [destruct D|reflexivity|reflexivity]|]); split; intros; tauto || auto.
Qed.
Lemma stands_fun m n v v' : stands_for m n v -> stands_for m n v' -> v = v'.
Proof.
  unfold stands_for. intros [A B] [A' B']. destruct (missing_cases m) as [[_ H]|[[_ H]|[_ [H H']]]].
  - rewrite A, A'; auto.
  - rewrite A, A'; auto.
  - rewrite B, B'; auto.
Qed.
Lemma has_text_dec m n : (exists v, has_text m n v) \/ (forall v, ~ has_text m n v).
Proof.
  destruct (get m (string_of_list_ascii n)) as [[v|v]|] eqn:E.
  - left. exists (b v), v. auto.
  - right. intros x (s & Q & _). congruence.
  - right. intros x (s & Q & _). congruence.
Qed.
Lemma refs_ex m : forall f s, length s <= f -> exists lost, line_refs m s (fst (replace_refs m f s)) lost /\ snd (replace_refs m f s) = lost && drops m.
Proof.
  induction f as [|f IH]; intros s L; [destruct s; [exists false; cbn; split; [constructor|reflexivity]|cbn in L; lia]|]. rewrite replace_refs_step.
  destruct (front s) as [[n r]|] eqn:E.
  - apply front_some in E as [V ->]. assert (LR : length r <= f) by (unfold reference in L; rewrite !app_length in L; cbn in L; lia).
    destruct (IH r LR) as (lost & R & D). destruct (replace_refs m f r) as [out d2]. cbn [fst snd] in *.
    destruct (has_text_dec m n) as [(v & T)|N].
    + rewrite (one_ref_text _ _ _ T). exists lost. split; [constructor; auto|]. exact D.
    + destruct (one_ref_lost m n N) as (v & -> & T). exists true. split; [eapply L_lost; eauto|]. cbn. rewrite D. destruct lost, (drops m); reflexivity.
  - destruct s as [|c t]; [exists false; split; [constructor|reflexivity]|]. destruct (IH t) as (lost & R & D); [cbn in L; lia|].
    destruct (replace_refs m f t) as [out d]. cbn [fst snd] in *. exists lost. split; [|exact D]. constructor; auto. now apply front_none.
Qed.
Lemma refs_fun m s out lost : line_refs m s out lost -> forall f, length s <= f -> replace_refs m f s = (out, lost && drops m).
Proof.
  induction 1 as [|n v s out lost V T H IH|n v s out lost V N T H IH|c s out lost N H IH]; intros f L.
  - destruct f; reflexivity.
  - assert (P : length s + 3 <= length (reference n ++ s)) by (unfold reference; rewrite !app_length; destruct V as [V _]; destruct n; [congruence|]; cbn; lia).
    destruct f as [|f]; [lia|]. rewrite replace_refs_step, (proj2 (front_some _ n s)) by auto. rewrite (one_ref_text _ _ _ T), IH by lia. reflexivity.
  - assert (P : length s + 3 <= length (reference n ++ s)) by (unfold reference; rewrite !app_length; destruct V as [V _]; destruct n; [congruence|]; cbn; lia).
    destruct f as [|f]; [lia|]. rewrite replace_refs_step, (proj2 (front_some _ n s)) by auto.
    destruct (one_ref_lost m n N) as (v' & -> & T'). rewrite (stands_fun _ _ _ _ T T'). rewrite IH by lia. f_equal. destruct lost, (drops m); reflexivity.
  - destruct f as [|f]; [cbn in L; lia|]. rewrite replace_refs_step, (proj2 (front_none _)) by auto. rewrite IH by (cbn in L; lia). reflexivity.
Qed.

(** ** a line, a text *)
Lemma listed_spec m w v : get_str m "docinfosubs" = Some v -> existsb (bytes_eqb w) (map trim (split_by comma v)) = true <-> sub_listed m w.
Proof.
  intros E. rewrite existsb_exists. split.
  - intros (x & I & Q). apply bytes_eqb_eq in Q as ->. apply in_map_iff in I as (part & <- & I). apply split_by_spec in I.
    exists v, part. auto using trim_spec.
  - intros (v' & part & E' & P & T). assert (v' = v) by congruence. subst v'. exists w. split; [|now apply bytes_eqb_eq].
    apply in_map_iff. exists part. split; [now apply trim_unique|now apply split_by_spec].
Qed.
Lemma subs_spec m : (fst (docinfo_subs m) = true <-> attributes_on m) /\ (snd (docinfo_subs m) = true <-> replacements_on m).
Proof.
  unfold docinfo_subs, attributes_on, replacements_on. destruct (get_str m "docinfosubs") as [v|] eqn:E; cbn [fst snd].
  - rewrite !(listed_spec m _ v E). split; [|tauto]. split; [auto|]. intros [H|H]; [discriminate|exact H].
  - split; split; auto; try discriminate. intros (v & part & Q & _). congruence.
Qed.
Lemma line_spec m l its : line_result m l its <-> its = items (parse_docinfo_line m l).
Proof.
  unfold line_result, parse_docinfo_line, resolve_docinfo_attr_refs. destruct (subs_spec m) as [SA SR]. destruct (docinfo_subs m) as [ar re]. cbn [fst snd] in *.
  assert (OUT : forall out (x : list item), (replacements_on m /\ symbols_read out x) \/ (~ replacements_on m /\ x = map IByte out) <->
     x = items (if re then append_docinfo_symbols (length out) [] [] out else append_docinfo_text [] out)).
  { intros out x. destruct re.
    - rewrite symbols_items by auto. cbn [items flat_map map app]. split.
      + intros [[_ H]|[H _]]; [now apply sread_fun|tauto].
      + intros ->. left. split; [tauto|now apply sread_ex].
    - rewrite items_text. cbn [items flat_map app]. split.
      + intros [[H _]|[_ H]]; [|exact H]. apply SR in H. discriminate.
      + intros ->. right. split; [intros H; apply SR in H; discriminate|reflexivity]. }
  split.
  - intros (out & lost & HR & HO).
    assert (Q : (if negb ar then Some l else let (o, d) := replace_refs m (length l) l in if d then None else Some o) = if lost && drops m then None else Some out).
    { destruct HR as [[A R]|(A & -> & ->)].
      - apply SA in A. rewrite A. cbn [negb]. now rewrite (refs_fun _ _ _ _ R) by auto.
      - destruct ar; [tauto|reflexivity]. }
    rewrite Q. destruct HO as [(-> & D & ->)|(D & HO)].
    + apply drops_spec in D. rewrite D. reflexivity.
    + replace (lost && drops m) with false; [now apply OUT|]. symmetry. destruct lost; [|reflexivity]. cbn. destruct (drops m) eqn:Z; [|reflexivity].
      apply drops_spec in Z. destruct (D eq_refl Z).
  - intros ->. destruct ar; cbn [negb].
    + destruct (refs_ex m (length l) l (le_n _)) as (lost & R & D). destruct (replace_refs m (length l) l) as [out d]. cbn [fst snd] in *.
      exists out, lost. split; [left; tauto|]. subst d. destruct (lost && drops m) eqn:Z.
      * apply andb_prop in Z as [-> Z]. left. apply drops_spec in Z. auto.
      * right. split; [intros ->; cbn in Z; intros H; apply drops_spec in H; congruence|]. now apply OUT.
    + exists l, false. split; [right; split; [intros H; apply SA in H; discriminate|auto]|]. right. split; [discriminate|]. now apply OUT.
Qed.
Lemma text_spec m text its : text_result m text its <-> its = items (parse_docinfo_fragment m (unix_lines text)).
Proof.
  assert (F : forall ls, items (flat_map (parse_docinfo_line m) ls) = concat (map (fun l => items (parse_docinfo_line m l)) ls)).
  { induction ls as [|l ls IH]; [reflexivity|]. cbn [flat_map map concat]. now rewrite items_app, IH. }
  unfold text_result, parse_docinfo_fragment. rewrite F. split.
  - intros (ls & parts & T & P & ->). apply text_lines_fun in T as ->. f_equal. induction P as [|l p ls ps H P IH]; [reflexivity|]. cbn. apply line_spec in H as ->. now rewrite IH.
  - intros ->. eexists _, _. split; [apply text_lines_ex|]. split; [|reflexivity].
    induction (lines_of (unix_lines text)); constructor; auto. now apply line_spec.
Qed.

(** ** a place *)
Lemma read_spec m lossy base content f :
  let readable := fun f text => exists raw s, content (docinfo_target m base f) = Some raw /\ normalize_encoding None raw = Ok s /\ text = lossy s in
  file_result m readable f (option_map items (snd (read_docinfo m lossy base content f))).
Proof.
  unfold read_docinfo. cbn [snd]. destruct (content (docinfo_target m base f)) as [raw|] eqn:C.
  - destruct (normalize_encoding None raw) as [s|e] eqn:E; cbn [option_map file_result].
    + exists (lossy s). split; [eauto|]. now apply text_spec.
    + intros (text & raw' & s & C' & E' & _). congruence.
  - cbn [option_map file_result]. intros (text & raw' & s & C' & _). congruence.
Qed.
Lemma location_spec m lossy base content p :
  let readable := fun f text => exists raw s, content (docinfo_target m base f) = Some raw /\ normalize_encoding None raw = Ok s /\ text = lossy s in
  let r := resolve_docinfo_location m lossy base content (docinfo_attributes m) (docinfo_filename m (qualifier p))
             ($"shared" ++ $"-" ++ place_name p) ($"private" ++ $"-" ++ place_name p) in
  fst r = map (fun f => (docinfo_target m base f, m_safe m)) (asked m p) /\ fragment m readable (asked m p) (snd r).
Proof.
  intros readable r. subst r. unfold resolve_docinfo_location, asked.
  set (sh := existsb _ _). set (pr := existsb _ _). set (file := docinfo_filename m (qualifier p)).
  pose proof (read_spec m lossy base content file) as R1. cbv zeta in R1. fold readable in R1.
  assert (NX : forall (f : option (list dnode)) rs, found rs = match f with Some x => [items x] | None => [] end ->
     match f with None => found rs = [] | Some ns => exists x r, found rs = x :: r /\ items ns = x ++ concat (map (fun y => IByte LF :: y) r) end).
  { intros [x|] rs E; [|exact E]. exists (items x), []. split; [exact E|]. cbn. now rewrite app_nil_r. }
  destruct (get_str m "docname") as [[|x n]|]; [|destruct pr|].
  2: { pose proof (read_spec m lossy base content ((x :: n) ++ $"-" ++ file)) as R2. cbv zeta in R2. fold readable in R2.
       destruct sh; cbv zeta.
       - destruct (read_docinfo m lossy base content file) as [c1 f1] eqn:E1. destruct (read_docinfo m lossy base content ((x :: n) ++ $"-" ++ file)) as [c2 f2] eqn:E2.
         cbn [snd] in R1, R2. assert (C1 : c1 = (docinfo_target m base file, m_safe m)) by (unfold read_docinfo in E1; congruence).
         assert (C2 : c2 = (docinfo_target m base ((x :: n) ++ $"-" ++ file), m_safe m)) by (unfold read_docinfo in E2; congruence). subst c1 c2.
         split; [reflexivity|]. exists [option_map items f1; option_map items f2]. split; [repeat constructor; assumption|].
         destruct f1 as [f1|], f2 as [f2|]; cbn [snd option_map found].
         + exists (items f1), [items f2]. split; [reflexivity|]. rewrite items_app, items_text. cbn [map concat]. rewrite app_nil_r, <- app_assoc. reflexivity.
         + exists (items f1), []. split; [reflexivity|]. cbn. now rewrite app_nil_r.
         + exists (items f2), []. split; [reflexivity|]. cbn. now rewrite app_nil_r.
         + reflexivity.
       - destruct (read_docinfo m lossy base content ((x :: n) ++ $"-" ++ file)) as [c2 f2] eqn:E2.
         cbn [snd] in R2. assert (C2 : c2 = (docinfo_target m base ((x :: n) ++ $"-" ++ file), m_safe m)) by (unfold read_docinfo in E2; congruence). subst c2.
         split; [reflexivity|]. exists [option_map items f2]. split; [repeat constructor; assumption|]. cbn [snd]. 
         destruct f2 as [f2|]; cbn [option_map found]; [|reflexivity]. exists (items f2), []. split; [reflexivity|]. cbn. now rewrite app_nil_r. }
  all: destruct sh; cbv zeta;
    [destruct (read_docinfo m lossy base content file) as [c1 f1] eqn:E1; cbn [snd] in R1;
     assert (C1 : c1 = (docinfo_target m base file, m_safe m)) by (unfold read_docinfo in E1; congruence); subst c1;
     (split; [reflexivity|]); exists [option_map items f1]; (split; [repeat constructor; assumption|]); cbn [snd];
     destruct f1 as [f1|]; cbn [option_map found]; [exists (items f1), []; (split; [reflexivity|]); cbn; now rewrite app_nil_r|reflexivity]
    |(split; [reflexivity|]); exists []; (split; [constructor|reflexivity])].
Qed.
Lemma asked_none m p : docinfo_attributes m = [] -> asked m p = [].
Proof. intros E. unfold asked. rewrite E. cbn. destruct (get_str m "docname") as [[|x r]|]; reflexivity. Qed.
Lemma resolve_spec m lossy base content : m_safe m <> Secure ->
  let readable := fun f text => exists raw s, content (docinfo_target m base f) = Some raw /\ normalize_encoding None raw = Ok s /\ text = lossy s in
  let r := resolve_docinfo m lossy (Some base) content in
  fst r = map (fun f => (docinfo_target m base f, m_safe m)) (asked m Head ++ asked m Header ++ asked m Footer) /\
  fragment m readable (asked m Head) (head (snd r)) /\ fragment m readable (asked m Header) (header (snd r)) /\ fragment m readable (asked m Footer) (footer (snd r)).
Proof.
  intros NS readable r. subst r. unfold resolve_docinfo.
  pose proof (location_spec m lossy base content Head) as L1. pose proof (location_spec m lossy base content Header) as L2. pose proof (location_spec m lossy base content Footer) as L3.
  cbv zeta in L1, L2, L3. fold readable in L1, L2, L3. cbn [qualifier place_name b list_ascii_of_string app] in L1, L2, L3.
  destruct (docinfo_attributes m) as [|w ws] eqn:E.
  - rewrite !(asked_none m _ E). replace (match m_safe m with Secure => _ | _ => _ end) with (@nil (target * safe_mode), no_docinfo) by (destruct (m_safe m); congruence).
    split; [reflexivity|]. assert (F : fragment m readable [] None) by (exists []; split; [constructor|reflexivity]). auto.
  - set (X1 := resolve_docinfo_location _ _ _ _ _ _ _ _) in L1. set (X2 := resolve_docinfo_location _ _ _ _ _ _ _ _) in L2. set (X3 := resolve_docinfo_location _ _ _ _ _ _ _ _) in L3.
    assert (Q : forall A (a c : A), (match m_safe m with Secure => a | _ => c end) = c) by (intros; destruct (m_safe m); congruence).
    rewrite Q. cbv zeta. cbn [b list_ascii_of_string app]. fold X1 X2 X3. destruct X1 as [c1 f1], X2 as [c2 f2], X3 as [c3 f3]. cbn [fst snd head header footer] in *.
    destruct L1 as [-> F1], L2 as [-> F2], L3 as [-> F3]. split; [now rewrite !map_app|]. auto.
Qed.
