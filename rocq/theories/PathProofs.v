From Verif Require Import Base PathModel PathSpec.

Lemma alphabetic_spec a : alphabetic a = true <-> (65 <= nat_of_ascii a <= 90) \/ (97 <= nat_of_ascii a <= 122).
Proof. unfold alphabetic. rewrite orb_true_iff, !andb_true_iff, !Nat.leb_le. tauto. Qed.
Lemma drive_none s : drive_prefix s = None <-> ~ has_drive s.
Proof.
  split.
  - intros E (a & r & -> & H). simpl in E. apply alphabetic_spec in H. rewrite H in E. discriminate.
  - intro N. destruct s as [|a [|d s]]; try reflexivity. simpl.
    destruct (Ascii.eqb_spec d ":"%char) as [->|]; [|reflexivity]. simpl.
    destruct (alphabetic a) eqn:A; [|reflexivity]. exfalso. apply N. exists a, s. split; [reflexivity|].
    apply alphabetic_spec, A.
Qed.
Lemma drive_some s p : drive_prefix s = Some p -> exists a r, s = a :: ":"%char :: r /\ p = [a; ":"%char] /\ alphabetic a = true.
Proof.
  destruct s as [|a [|d s]]; try discriminate. simpl.
  destruct (Ascii.eqb_spec d ":"%char) as [->|]; [|discriminate]. simpl.
  destruct (alphabetic a) eqn:A; [|discriminate]. intros [= <-]. exists a, s. auto.
Qed.

Lemma segment_denotes seg : seg <> [] -> exists c, segment seg = [c] /\ denotes seg c.
Proof.
  intro NE. unfold segment.
  destruct (bytes_eqb seg []) eqn:E; [apply bytes_eqb_eq in E; contradiction|]. clear E.
  destruct (bytes_eqb seg ($".")) eqn:E1; [apply bytes_eqb_eq in E1; eexists; split; [reflexivity|left; auto]|].
  destruct (bytes_eqb seg ($"..")) eqn:E2; [apply bytes_eqb_eq in E2; eexists; split; [reflexivity|right; left; auto]|].
  destruct (bytes_eqb seg ($"https:")) eqn:E3; [apply bytes_eqb_eq in E3; eexists; split; [reflexivity|right; right; left; auto]|].
  destruct (bytes_eqb seg ($"http:")) eqn:E4; [apply bytes_eqb_eq in E4; eexists; split; [reflexivity|right; right; right; left; auto]|].
  eexists; split; [reflexivity|]. right; right; right; right. split; [|reflexivity].
  intros H. repeat (destruct H as [H|H]; [subst seg; rewrite bytes_eqb_refl in *; discriminate|]). destruct H.
Qed.
Lemma denotes_fun seg c1 c2 : denotes seg c1 -> denotes seg c2 -> c1 = c2.
Proof.
  unfold denotes. intros H1 H2.
  destruct H1 as [[E1 ->]|[[E1 ->]|[[E1 ->]|[[E1 ->]|[N1 ->]]]]], H2 as [[E2 ->]|[[E2 ->]|[[E2 ->]|[[E2 ->]|[N2 ->]]]]];
    try reflexivity; try (exfalso; rewrite E1 in E2; vm_compute in E2; discriminate);
    try (exfalso; subst seg; apply N2; simpl; tauto); try (exfalso; subst seg; apply N1; simpl; tauto).
Qed.

(** ** Parsing by segments (forward slashes) *)
Lemma flat_segments segs cs :
  Forall2 denotes (filter (fun s => negb (bytes_eqb s [])) segs) cs -> flat_map segment segs = cs.
Proof.
  revert cs. induction segs as [|s segs IH]; intros cs F; simpl in *.
  - inversion F. reflexivity.
  - destruct (bytes_eqb s []) eqn:E; simpl in F.
    + apply bytes_eqb_eq in E as ->. simpl. apply IH, F.
    + assert (s <> []) by (intros ->; rewrite bytes_eqb_refl in E; discriminate).
      inversion F as [|? c ? cs' D F']; subst. destruct (segment_denotes s H) as (c' & E' & D').
      rewrite E', (denotes_fun _ _ _ D' D), (IH _ F'). reflexivity.
Qed.
Lemma infer_slash s : ~ In bslash s -> infer s = slash.
Proof. intro N. unfold infer. apply contains_byte_false in N. rewrite N. reflexivity. Qed.

Lemma new_unix s : ~ In bslash s -> ~ has_drive s -> new s = mkPath slash (body slash s).
Proof. intros N D. unfold new, from_optional_sep. apply drive_none in D. rewrite D, infer_slash by exact N. reflexivity. Qed.

Lemma new_segments (root : bool) segs cs s :
  segs <> [] ->
  Forall (fun p => ~ In slash p /\ ~ In bslash p) segs ->
  s = (if root then [slash] else []) ++ join_byte slash segs ->
  (root = false -> hd [] segs <> [] \/ segs = [[]]) ->
  ~ has_drive s ->
  Forall2 denotes (filter (fun p => negb (bytes_eqb p [])) segs) cs ->
  new s = mkPath slash ((if root then [Root] else []) ++ cs).
Proof.
  intros NE F -> HD ND D.
  assert (F1 : Forall (fun p => ~ In slash p) segs) by (eapply Forall_impl; [|exact F]; intros a [H _]; exact H).
  assert (NB : ~ In bslash (join_byte slash segs)).
  { clear -F. induction segs as [|p [|q segs] IH]; simpl; auto.
    - inversion F as [|? ? [_ H] _]; exact H.
    - inversion F as [|? ? [_ H] F']; subst. rewrite in_app_iff. intros [I|[I|I]]; [contradiction|discriminate|]. apply IH; assumption. }
  destruct root; simpl app.
  - rewrite new_unix; [|simpl; intros [I|I]; [discriminate|contradiction]|exact ND].
    unfold body. rewrite Ascii.eqb_refl, split_join by assumption. f_equal. f_equal. apply flat_segments, D.
  - rewrite new_unix; [|exact NB|exact ND]. f_equal. specialize (HD eq_refl).
    assert (E : body slash (join_byte slash segs) = flat_map segment (split_byte slash (join_byte slash segs))).
    { destruct (join_byte slash segs) as [|c r] eqn:J; [reflexivity|]. unfold body.
      destruct (Ascii.eqb_spec c slash) as [->|]; [|reflexivity]. exfalso.
      destruct segs as [|p segs]; [congruence|]. inversion F1 as [|? ? N1 _]; subst.
      destruct HD as [HD|HD].
      - destruct p as [|x p]; [simpl in HD; congruence|].
        assert (x = slash) by (destruct segs; simpl in J; injection J as -> _; reflexivity).
        subst x. apply N1. left. reflexivity.
      - rewrite HD in J. discriminate. }
    rewrite E, split_join by assumption. apply flat_segments, D.
Qed.

(** ** Printing and parsing again *)
Definition name_ok (sep : ascii) (s : bytes) : Prop :=
  s <> [] /\ ~ In sep s /\ segment s = [Normal s].
(** components other than root/drive that survive printing with [sep] *)
Definition comp_ok (sep : ascii) (c : component) : Prop :=
  match c with
  | UriScheme s => sep = slash /\ (s = $"https" \/ s = $"http")
  | DrivePrefix _ | Root => False
  | CurrentDir | ParentDir => True
  | Normal s => name_ok sep s
  end.
Definition parts (sep : ascii) (s : bytes) : list component := flat_map segment (split_byte sep s).

Lemma split_cons_sep c r : split_byte c (c :: r) = [] :: split_byte c r.
Proof. simpl. rewrite Ascii.eqb_refl. reflexivity. Qed.

Lemma parts_cons sep r : parts sep (sep :: r) = parts sep r.
Proof. unfold parts. rewrite split_cons_sep. reflexivity. Qed.
Lemma parts_name sep n r : ~ In sep n -> parts sep (n ++ sep :: r) = segment n ++ parts sep r.
Proof. intro N. unfold parts. rewrite split_byte_app by exact N. reflexivity. Qed.
Lemma parts_one sep n : ~ In sep n -> parts sep n = segment n.
Proof. intro N. unfold parts. rewrite split_byte_one by exact N. simpl. apply app_nil_r. Qed.

Definition sep_legal (sep : ascii) : Prop := sep = slash \/ sep = bslash.
Ltac notin := simpl; intuition discriminate.
Lemma parts_comp sep c r : sep_legal sep -> comp_ok sep c -> parts sep (show1 sep c ++ sep :: r) = c :: parts sep r.
Proof.
  intros SL OK. destruct c; simpl in OK; try contradiction.
  - destruct OK as [-> [->| ->]]; simpl show1; simpl app.
    + change ("h" :: "t" :: "t" :: "p" :: "s" :: ":" :: "/" :: slash :: r)%char with (($"https:") ++ slash :: slash :: r).
      rewrite parts_name by notin. rewrite parts_cons. reflexivity.
    + change ("h" :: "t" :: "t" :: "p" :: ":" :: "/" :: slash :: r)%char with (($"http:") ++ slash :: slash :: r).
      rewrite parts_name by notin. rewrite parts_cons. reflexivity.
  - simpl show1. rewrite parts_name by (destruct SL; subst; notin). reflexivity.
  - simpl show1. rewrite parts_name by (destruct SL; subst; notin). reflexivity.
  - destruct OK as (_ & N & S). simpl show1. rewrite parts_name by exact N. rewrite S. reflexivity.
Qed.
Lemma parts_last sep c : sep_legal sep -> comp_ok sep c -> parts sep (show1 sep c) = [c].
Proof.
  intros SL OK. destruct c; simpl in OK; try contradiction.
  - destruct OK as [-> [->| ->]]; reflexivity.
  - simpl show1. rewrite parts_one by (destruct SL; subst; notin). reflexivity.
  - simpl show1. rewrite parts_one by (destruct SL; subst; notin). reflexivity.
  - destruct OK as (_ & N & S). simpl show1. rewrite parts_one by exact N. exact S.
Qed.
Lemma parts_show sep l : sep_legal sep -> Forall (comp_ok sep) l -> parts sep (show sep l) = l.
Proof.
  intro SL. induction l as [|c [|d l] IH]; intro F; [reflexivity| |].
  - inversion F; subst. apply parts_last; assumption.
  - inversion F as [|? ? OK F']; subst.
    change (show sep (c :: d :: l)) with (show1 sep c ++ sep_after sep c ++ show sep (d :: l)).
    assert (E : sep_after sep c = [sep]) by (destruct c; simpl in OK; try contradiction; reflexivity).
    rewrite E. cbn [app]. rewrite parts_comp, IH by assumption. reflexivity.
Qed.
Lemma show_head sep c l : sep_legal sep -> comp_ok sep c -> exists x r, show sep (c :: l) = x :: r /\ x <> sep.
Proof.
  intros SL OK.
  assert (H : exists x r, show1 sep c = x :: r /\ x <> sep).
  { destruct c; simpl in OK; try contradiction.
    - destruct OK as [-> [->| ->]]; simpl; eexists _, _; split; try reflexivity; discriminate.
    - simpl. eexists _, _; split; [reflexivity|]. destruct SL; subst; discriminate.
    - simpl. eexists _, _; split; [reflexivity|]. destruct SL; subst; discriminate.
    - destruct OK as (NE & N & _). destruct s as [|x s]; [congruence|]. simpl. eexists _, _; split; [reflexivity|].
      intros ->. apply N. left. reflexivity. }
  destruct H as (x & r & E & N). destruct l as [|d l].
  - exists x, r. auto.
  - change (show sep (c :: d :: l)) with (show1 sep c ++ sep_after sep c ++ show sep (d :: l)).
    rewrite E. eexists _, _. split; [reflexivity|exact N].
Qed.
Lemma body_show sep (root : bool) l : sep_legal sep -> Forall (comp_ok sep) l ->
  body sep (show sep ((if root then [Root] else []) ++ l)) = (if root then [Root] else []) ++ l.
Proof.
  intros SL F. destruct root; cbn [app].
  - destruct l as [|d l].
    + simpl. rewrite Ascii.eqb_refl. reflexivity.
    + change (show sep (Root :: d :: l)) with (sep :: show sep (d :: l)). unfold body. rewrite Ascii.eqb_refl.
      change (flat_map segment (split_byte sep (show sep (d :: l)))) with (parts sep (show sep (d :: l))).
      rewrite parts_show by assumption. reflexivity.
  - destruct l as [|c l]; [reflexivity|]. inversion F as [|? ? OK _]; subst.
    destruct (show_head sep c l SL OK) as (x & r & E & N).
    rewrite <- (parts_show sep (c :: l) SL F) at 2. rewrite E. unfold body.
    apply Ascii.eqb_neq in N. rewrite N. reflexivity.
Qed.

(** what parsing produces *)
Lemma segment_ok sep s c : ~ In sep s -> In c (segment s) -> (forall x, c = UriScheme x -> sep = slash) -> comp_ok sep c.
Proof.
  intros N I U. unfold segment in I.
  destruct (bytes_eqb s []) eqn:E0; [destruct I|].
  destruct (bytes_eqb s ($".")) eqn:E1; [destruct I as [<-|[]]; exact Logic.I|].
  destruct (bytes_eqb s ($"..")) eqn:E2; [destruct I as [<-|[]]; exact Logic.I|].
  destruct (bytes_eqb s ($"https:")) eqn:E3; [destruct I as [<-|[]]; split; [eapply U; reflexivity|auto]|].
  destruct (bytes_eqb s ($"http:")) eqn:E4; [destruct I as [<-|[]]; split; [eapply U; reflexivity|auto]|].
  destruct I as [<-|[]]. split; [|split].
  - intros ->. rewrite bytes_eqb_refl in E0. discriminate.
  - exact N.
  - unfold segment. rewrite E0, E1, E2, E3, E4. reflexivity.
Qed.
Lemma parts_ok sep s : (forall x, In (UriScheme x) (parts sep s) -> sep = slash) -> Forall (comp_ok sep) (parts sep s).
Proof.
  intro U. apply Forall_forall. intros c I. pose proof I as I0. unfold parts in I. apply in_flat_map in I as (seg & I1 & I2).
  destruct (split_byte_parts sep s) as [F _]. rewrite Forall_forall in F.
  apply (segment_ok sep seg); [apply F, I1|exact I2|]. intros x ->. eapply U, I0.
Qed.
Lemma body_shape sep s : exists (root : bool) l, body sep s = (if root then [Root] else []) ++ l /\
  l = parts sep (if root then tl s else s) /\ (root = true -> exists r, s = sep :: r) /\
  (root = false -> forall r, s <> sep :: r).
Proof.
  unfold body. destruct s as [|c r].
  - exists false, (parts sep []). split; [reflexivity|]. split; [reflexivity|]. split; [discriminate|]. intros _ r H; discriminate.
  - destruct (Ascii.eqb_spec c sep) as [->|N].
    + exists true, (parts sep r). split; [reflexivity|]. split; [reflexivity|]. split; [intros _; exists r; reflexivity|discriminate].
    + exists false, (parts sep (c :: r)). split; [reflexivity|]. split; [reflexivity|]. split; [discriminate|].
      intros _ r' [= H _]. contradiction.
Qed.

Lemma infer_legal s : sep_legal (infer s).
Proof. unfold infer, sep_legal. destruct (contains_byte bslash s); auto. Qed.

Lemma split_sub sep s seg y : In seg (split_byte sep s) -> In y seg -> In y s.
Proof.
  revert seg. induction s as [|d s IH]; intros seg I1 Hy; simpl in I1.
  - destruct I1 as [<-|[]]. destruct Hy.
  - destruct (Ascii.eqb d sep).
    + destruct I1 as [<-|I1]; [destruct Hy|]. right. eapply IH; eauto.
    + destruct (split_byte sep s) as [|h t] eqn:E.
      * destruct I1 as [<-|[]]. destruct Hy as [<-|[]]. left. reflexivity.
      * destruct I1 as [<-|I1].
        -- destruct Hy as [<-|Hy]; [left; reflexivity|]. right. apply (IH h); [left; reflexivity|exact Hy].
        -- right. apply (IH seg); [right; exact I1|exact Hy].
Qed.
Lemma parts_chars sep s c x : In c (parts sep s) -> In x (show1 sep c) -> In x s \/ x = "/"%char \/ x = "."%char \/ x = ":"%char.
Proof.
  unfold parts. intros I H. apply in_flat_map in I as (seg & I1 & I2).
  assert (SUB : forall y, In y seg -> In y s) by (intros y; eapply split_sub, I1).
  destruct (bytes_eqb seg []) eqn:E0; [unfold segment in I2; rewrite E0 in I2; destruct I2|].
  destruct (segment_denotes seg) as (c' & E & D); [intros ->; rewrite bytes_eqb_refl in E0; discriminate|].
  rewrite E in I2. destruct I2 as [<-|[]].
  destruct D as [[-> ->]|[[-> ->]|[[-> ->]|[[-> ->]|[_ ->]]]]]; simpl in H.
  - destruct H as [<-|[]]; auto.
  - destruct H as [<-|[<-|[]]]; auto.
  - repeat (destruct H as [<-|H]; [first [right; auto; fail|left; apply SUB; simpl; tauto]|]). destruct H.
  - repeat (destruct H as [<-|H]; [first [right; auto; fail|left; apply SUB; simpl; tauto]|]). destruct H.
  - left. apply SUB, H.
Qed.

Lemma show_no_bslash l : Forall (fun c => forall x, In x (show1 slash c) -> x <> bslash) l -> ~ In bslash (show slash l).
Proof.
  induction l as [|c [|d l] IH]; intro F; [intros []| |].
  - inversion F as [|? ? H _]; subst. intro I. apply (H bslash I). reflexivity.
  - inversion F as [|? ? H F']; subst.
    change (show slash (c :: d :: l)) with (show1 slash c ++ sep_after slash c ++ show slash (d :: l)).
    rewrite !in_app_iff. intros [I|[I|I]].
    + apply (H bslash I). reflexivity.
    + destruct c; simpl in I; try destruct I as [I|[]]; try contradiction; discriminate.
    + apply IH; assumption.
Qed.

(** first two characters of the printed form decide about a drive *)
Lemma show_drive sep c l : sep_legal sep -> comp_ok sep c ->
  has_drive (show sep (c :: l)) -> exists s, c = Normal s /\ has_drive (s ++ [sep]).
Proof.
  intros SL OK (a & r & E & A).
  assert (H : exists t, show sep (c :: l) = show1 sep c ++ t /\ (t = [] \/ exists u, t = sep :: u)).
  { destruct l as [|d l]; [exists []; rewrite app_nil_r; auto|].
    exists (sep :: show sep (d :: l)). split; [|right; eauto].
    change (show sep (c :: d :: l)) with (show1 sep c ++ sep_after sep c ++ show sep (d :: l)).
    destruct c; simpl in OK; try contradiction; reflexivity. }
  destruct H as (t & Et & Ht). rewrite Et in E.
  destruct c; simpl in OK; try contradiction; cbn [show1] in E.
  - destruct OK as [_ [->| ->]]; discriminate.
  - injection E as <- E. vm_compute in A. lia.
  - injection E as <- E. vm_compute in A. lia.
  - exists s. split; [reflexivity|]. destruct OK as (NE & N & _).
    destruct s as [|x [|y s]]; [congruence| |].
    + exfalso. simpl in E. injection E as <- E. destruct Ht as [->|(u & ->)]; [discriminate|].
      injection E as E _. destruct SL; subst; discriminate.
    + simpl in E. injection E as -> -> _. exists a, (s ++ [sep]). split; [reflexivity|exact A].
Qed.

Lemma parts_first_drive sep s c l : sep_legal sep -> ~ has_drive s -> (forall r, s <> sep :: r) ->
  parts sep s = c :: l -> forall n, c = Normal n -> ~ has_drive (n ++ [sep]).
Proof.
  intros SL ND NS E n -> HD.
  destruct (split_byte_parts sep s) as [F J].
  unfold parts in E. destruct (split_byte sep s) as [|p ps] eqn:S; [discriminate|].
  assert (P : p = n).
  { assert (P0 : p <> [] \/ s = []).
    { destruct p as [|x p]; [|left; discriminate]. right. destruct ps as [|q ps]; [simpl in J; congruence|].
      exfalso. apply (NS (join_byte sep (q :: ps))). rewrite <- J. reflexivity. }
    destruct P0 as [P0| ->].
    - cbn [flat_map] in E. unfold segment in E at 1.
      destruct (bytes_eqb p []) eqn:E0; [apply bytes_eqb_eq in E0; contradiction|].
      destruct (bytes_eqb p ($".")); [discriminate|].
      destruct (bytes_eqb p ($"..")); [discriminate|].
      destruct (bytes_eqb p ($"https:")); [discriminate|].
      destruct (bytes_eqb p ($"http:")); [discriminate|].
      injection E as E _. exact E.
    - simpl in S. injection S as <- <-. simpl in E. discriminate. }
  subst p. apply ND. destruct HD as (a & r & EH & A).
  assert (exists u, s = n ++ u) as (u & Eu).
  { rewrite <- J. destruct ps as [|q ps]; [exists []; simpl; rewrite app_nil_r; reflexivity|]. eexists. reflexivity. }
  destruct n as [|x [|y n]].
  - discriminate.
  - injection EH as -> EH _. destruct SL; subst; discriminate.
  - injection EH as -> -> _. exists a, (n ++ u). split; [exact Eu|exact A].
Qed.

(** the forward-slash family: no backslash, no drive letter *)
Lemma roundtrip_unix s : ~ In bslash s -> ~ has_drive s -> new (to_string (new s)) = new s.
Proof.
  intros NB ND. rewrite (new_unix s NB ND). unfold to_string. cbn [separator components].
  destruct (body_shape slash s) as (root & l & E & EL & R1 & R2). rewrite E.
  assert (SL : sep_legal slash) by (left; reflexivity).
  assert (F : Forall (comp_ok slash) l) by (subst l; apply parts_ok; reflexivity).
  assert (NB' : ~ In bslash (if root then tl s else s)).
  { destruct root; [|exact NB]. destruct (R1 eq_refl) as (r & ->). simpl. intro I. apply NB. right. exact I. }
  assert (C : Forall (fun c => forall x, In x (show1 slash c) -> x <> bslash) l).
  { apply Forall_forall. intros c Ic x Ix. subst l.
    destruct (parts_chars slash _ c x Ic Ix) as [I|[->|[->| ->]]]; try discriminate.
    intros ->. contradiction. }
  rewrite new_unix.
  - rewrite body_show by assumption. reflexivity.
  - apply show_no_bslash. destruct root; cbn [app]; [|exact C]. constructor; [|exact C].
    intros x [<-|[]]. discriminate.
  - intro HD. destruct root; cbn [app] in HD.
    + destruct HD as (a & r & EH & A). destruct l as [|d l].
      * discriminate.
      * change (show slash (Root :: d :: l)) with (slash :: show slash (d :: l)) in EH.
        injection EH as <- _. vm_compute in A. lia.
    + destruct l as [|c l]; [destruct HD as (a & r & EH & _); discriminate|].
      inversion F as [|? ? OK _]; subst.
      destruct (show_drive slash c l SL OK HD) as (n & Ec & HD').
      symmetry in EL. exact (parts_first_drive slash s c l SL ND (R2 eq_refl) EL n Ec HD').
Qed.

(** the backslash family: no forward slash, no scheme component *)
Lemma show_single sep sep' c : comp_ok sep c -> show1 sep c = show1 sep' c.
Proof. destruct c; simpl; intro H; try contradiction; reflexivity. Qed.

Lemma comp_ok_other c : comp_ok bslash c -> (forall x, In x (show1 bslash c) -> x <> slash) -> comp_ok slash c.
Proof.
  destruct c; simpl; intros OK H; auto.
  - destruct OK as [OK _]. discriminate.
  - destruct OK as (NE & N & S). split; [exact NE|]. split; [|exact S]. intro I. apply (H slash I). reflexivity.
Qed.

Lemma show_bslash_in c d l : comp_ok bslash c -> In bslash (show bslash (c :: d :: l)).
Proof.
  intro OK. change (show bslash (c :: d :: l)) with (show1 bslash c ++ sep_after bslash c ++ show bslash (d :: l)).
  rewrite !in_app_iff. right. left. destruct c; simpl in OK; try contradiction; simpl; auto.
Qed.

Lemma roundtrip_windows s :
  ~ In slash s -> Forall (fun c => ~ is_scheme c) (components (new s)) ->
  components (new (to_string (new s))) = components (new s) /\
  to_string (new (to_string (new s))) = to_string (new s).
Proof.
  intros NS NU.
  assert (BS : sep_legal bslash) by (right; reflexivity).
  destruct (drive_prefix s) as [p|] eqn:DP.
  - (* drive letter *)
    destruct (drive_some s p DP) as (a & r & -> & -> & A).
    assert (EN : new (a :: ":"%char :: r) = mkPath bslash (DrivePrefix [a; ":"%char] :: body bslash r)).
    { unfold new, from_optional_sep. rewrite DP. reflexivity. }
    rewrite EN in NU |- *. cbn [components] in NU. inversion NU as [|? ? _ NU']; subst.
    unfold to_string. cbn [separator components].
    destruct (body_shape bslash r) as (root & l & E & EL & R1 & R2). rewrite E in NU' |- *.
    assert (F : Forall (comp_ok bslash) l).
    { subst l. apply parts_ok. intros x I. exfalso. rewrite Forall_forall in NU'.
      apply (NU' (UriScheme x)); [destruct root; cbn [app]; [right|]; exact I|exists x; reflexivity]. }
    assert (ES : show bslash (DrivePrefix [a; ":"%char] :: (if root then [Root] else []) ++ l)
                 = a :: ":"%char :: show bslash ((if root then [Root] else []) ++ l)).
    { destruct root; [destruct l; reflexivity|]. cbn [app]. destruct l; reflexivity. }
    rewrite ES.
    assert (EN2 : forall t, new (a :: ":"%char :: t) = mkPath bslash (DrivePrefix [a; ":"%char] :: body bslash t)).
    { intro t. unfold new, from_optional_sep. simpl drive_prefix. rewrite A. reflexivity. }
    rewrite EN2. cbn [components separator]. rewrite body_show by assumption. split; [reflexivity|exact ES].
  - (* no drive letter *)
    assert (ND : ~ has_drive s) by (apply drive_none; exact DP).
    assert (EN : new s = mkPath (infer s) (body (infer s) s)).
    { unfold new, from_optional_sep. rewrite DP. reflexivity. }
    unfold infer in EN. destruct (contains_byte bslash s) eqn:CB.
    + rewrite EN in NU |- *. cbn [components] in NU. unfold to_string. cbn [separator components].
      destruct (body_shape bslash s) as (root & l & E & EL & R1 & R2). rewrite E in NU |- *.
      assert (F : Forall (comp_ok bslash) l).
      { subst l. apply parts_ok. intros x I. exfalso. rewrite Forall_forall in NU.
        apply (NU (UriScheme x)); [destruct root; cbn [app]; [right|]; exact I|exists x; reflexivity]. }
      assert (NS' : ~ In slash (if root then tl s else s)).
      { destruct root; [|exact NS]. destruct (R1 eq_refl) as (r & ->). simpl. intro I. apply NS. right. exact I. }
      assert (C : Forall (fun c => forall x, In x (show1 bslash c) -> x <> slash) l).
      { apply Forall_forall. intros c Ic x Ix ->. 
        assert (NSc : ~ is_scheme c).
        { rewrite Forall_forall in NU. apply NU. destruct root; cbn [app]; [right|]; exact Ic. }
        subst l. destruct (in_flat_map segment (split_byte bslash (if root then tl s else s)) c) as [H _].
        destruct (H Ic) as (seg & I1 & I2).
        destruct c; simpl in Ix.
        - apply NSc. eexists; reflexivity.
        - rewrite Forall_forall in F. apply (F _ Ic).
        - rewrite Forall_forall in F. apply (F _ Ic).
        - destruct Ix as [Ix|[]]; discriminate.
        - destruct Ix as [Ix|[Ix|[]]]; discriminate.
        - destruct (bytes_eqb seg []) eqn:E0; [unfold segment in I2; rewrite E0 in I2; destruct I2|].
          destruct (segment_denotes seg) as (c' & E' & D); [intros ->; rewrite bytes_eqb_refl in E0; discriminate|].
          rewrite E' in I2. destruct I2 as [->|[]].
          destruct D as [[_ D]|[[_ D]|[[_ D]|[[_ D]|[_ D]]]]]; try discriminate. injection D as ->.
          apply NS'. eapply split_sub; [exact I1|exact Ix]. }
      assert (ND' : ~ has_drive (show bslash ((if root then [Root] else []) ++ l))).
      { intro HD. destruct root; cbn [app] in HD.
        - destruct HD as (a & r & EH & A). destruct l as [|d l].
          + discriminate.
          + change (show bslash (Root :: d :: l)) with (bslash :: show bslash (d :: l)) in EH.
            injection EH as <- _. vm_compute in A. lia.
        - destruct l as [|c l]; [destruct HD as (a & r & EH & _); discriminate|].
          inversion F as [|? ? OK _]; subst.
          destruct (show_drive bslash c l BS OK HD) as (n & Ec & HD').
          symmetry in EL. exact (parts_first_drive bslash s c l BS ND (R2 eq_refl) EL n Ec HD'). }
      apply drive_none in ND'.
      destruct (contains_byte bslash (show bslash ((if root then [Root] else []) ++ l))) eqn:CB2.
      * assert (EN2 : new (show bslash ((if root then [Root] else []) ++ l))
                 = mkPath bslash (body bslash (show bslash ((if root then [Root] else []) ++ l)))).
        { unfold new, from_optional_sep. rewrite ND'. unfold infer. rewrite CB2. reflexivity. }
        rewrite EN2. cbn [components separator]. rewrite body_show by assumption. auto.
      * (* a single plain component: the separator does not show *)
        assert (EN2 : new (show bslash ((if root then [Root] else []) ++ l))
                 = mkPath slash (body slash (show bslash ((if root then [Root] else []) ++ l)))).
        { unfold new, from_optional_sep. rewrite ND'. unfold infer. rewrite CB2. reflexivity. }
        rewrite EN2. cbn [components separator]. apply contains_byte_false in CB2.
        destruct root; cbn [app] in *.
        { exfalso. apply CB2. destruct l; left; reflexivity. }
        destruct l as [|c l]; [split; reflexivity|]. inversion F as [|? ? OK _]; subst. inversion C as [|? ? OC _]; subst.
        destruct l as [|d l]; [|exfalso; apply CB2, show_bslash_in, OK].
        cbn [show]. assert (OK' := comp_ok_other c OK OC).
        rewrite (show_single bslash slash c OK).
        pose proof (body_show slash false [c] ltac:(left; reflexivity) ltac:(constructor; [exact OK'|constructor])) as B.
        cbn [app show] in B. rewrite B. cbn [show]. auto.
    + (* neither separator occurs *)
      apply contains_byte_false in CB. pose proof (roundtrip_unix s CB ND) as R. rewrite R. auto.
Qed.

(** ** join *)
Lemma join_absolute p q : is_absolute q = true -> components (join p q) = components q /\ separator (join p q) = separator p.
Proof. intro A. unfold join, push. rewrite A. auto. Qed.
Lemma join_relative p q : is_absolute q = false ->
  components (join p q) = components p ++ components q /\
  is_absolute (join p q) = is_absolute p /\ is_uri (join p q) = is_uri p.
Proof.
  intro A. unfold join, push. rewrite A. split; [reflexivity|].
  unfold is_absolute, is_uri in *. cbn [components].
  destruct (components p) as [|c l]; cbn [app].
  - destruct (components q) as [|[] [|[] ?]]; simpl in A; try discriminate; auto.
  - destruct c; auto. destruct l as [|[] l]; cbn [app]; auto.
    destruct (components q) as [|[] ?]; auto; simpl in A; discriminate.
Qed.

(** ** file names *)
Lemma file_name_rev_repeat k : file_name_rev (repeat CurrentDir k) = Panic.
Proof. induction k; simpl; auto. Qed.
Lemma file_name_rev_skip k l : file_name_rev (repeat CurrentDir k ++ l) = file_name_rev l.
Proof. induction k; simpl; auto. Qed.
Lemma rev_repeat {A} (x : A) k : rev (repeat x k) = repeat x k.
Proof.
  induction k; simpl; auto. rewrite IHk. clear. induction k; simpl; congruence.
Qed.
Lemma file_name_last p c : last_real (components p) c ->
  file_name p = Ret (match c with Normal s => s | _ => [] end).
Proof.
  intros (pre & k & E & N). unfold file_name. rewrite E, rev_app_distr. simpl.
  rewrite rev_repeat, <- app_assoc, file_name_rev_skip. simpl. destruct c; try reflexivity. congruence.
Qed.
Lemma last_real_or_dots l : (exists c, last_real l c) \/ l = repeat CurrentDir (length l).
Proof.
  induction l as [|c l IH] using rev_ind; [right; reflexivity|].
  destruct c; try (left; eexists; exists l, 0; simpl; split; [reflexivity|discriminate]).
  destruct IH as [(c & pre & k & -> & N)|E].
  - left. exists c, pre, (S k). split; [|exact N]. rewrite <- app_assoc. simpl. do 2 f_equal.
    clear. induction k; simpl; congruence.
  - right. rewrite app_length. cbn [length]. rewrite Nat.add_1_r. cbn [repeat]. rewrite repeat_cons. f_equal. exact E.
Qed.
Lemma file_name_panics p : file_name p = Panic <-> components p = repeat CurrentDir (length (components p)).
Proof.
  split.
  - intro H. destruct (last_real_or_dots (components p)) as [(c & L)|E]; [|exact E].
    rewrite (file_name_last p c L) in H. discriminate.
  - intro E. unfold file_name. rewrite E, rev_repeat. apply file_name_rev_repeat.
Qed.
Lemma rsplit_dot_spec s :
  match rsplit_dot s with
  | Some (x, y) => s = x ++ y /\ (exists t, y = "."%char :: t /\ ~ In "."%char t)
  | None => ~ In "."%char s
  end.
Proof.
  induction s as [|c s IH]; simpl; [intros []|].
  destruct (rsplit_dot s) as [[x y]|].
  - destruct IH as (-> & t & -> & N). split; [reflexivity|]. exists t. auto.
  - destruct (Ascii.eqb_spec c "."%char) as [->|NE].
    + split; [reflexivity|]. exists s. auto.
    + intros [I|I]; [congruence|contradiction].
Qed.
Lemma stem_extension p f : file_name p = Ret f ->
  exists st ex, file_stem p = Ret st /\ extension p = Ret ex /\ f = st ++ ex /\
    (In "."%char f -> exists t, ex = "."%char :: t /\ ~ In "."%char t) /\ (~ In "."%char f -> ex = []).
Proof.
  intro E. unfold file_stem, extension. rewrite E. pose proof (rsplit_dot_spec f) as S.
  destruct (rsplit_dot f) as [[x y]|].
  - destruct S as (-> & t & -> & N). exists x, ("."%char :: t). repeat split; auto.
    + intros _. exists t. auto.
    + intro H. exfalso. apply H. apply in_app_iff. right. left. reflexivity.
  - exists f, []. repeat split; auto; [rewrite app_nil_r; reflexivity|]. intro I. contradiction.
Qed.

(** ** pop and dirname *)
Lemma dshow_parts sep l : sep_legal sep -> Forall (comp_ok sep) l -> parts sep (dshow sep l) = l.
Proof.
  intro SL.
  assert (D1 : forall c, comp_ok sep c -> ~ In sep (dshow1 sep c) /\ segment (dshow1 sep c) = [c]).
  { intros c OK. destruct c; simpl in OK; try contradiction.
    - destruct OK as [-> [->| ->]]; (split; [notin|reflexivity]).
    - simpl. destruct SL; subst; (split; [notin|reflexivity]).
    - simpl. destruct SL; subst; (split; [notin|reflexivity]).
    - destruct OK as (_ & N & S). simpl. auto. }
  induction l as [|c [|d l] IH]; intro F; [reflexivity| |].
  - inversion F; subst. destruct (D1 c H1). cbn [dshow]. rewrite parts_one; assumption.
  - inversion F as [|? ? OK F']; subst. destruct (D1 c OK) as [N S].
    change (dshow sep (c :: d :: l)) with (dshow1 sep c ++ sep_after sep c ++ dshow sep (d :: l)).
    assert (E : sep_after sep c = [sep]) by (destruct c; simpl in OK; try contradiction; reflexivity).
    rewrite E. cbn [app]. rewrite parts_name, S, IH by assumption. reflexivity.
Qed.
Lemma dshow_split sep c l : comp_ok sep c -> exists t, dshow sep (c :: l) = dshow1 sep c ++ t /\ (t = [] \/ exists u, t = sep :: u).
Proof.
  intro OK. destruct l as [|d l]; [exists []; rewrite app_nil_r; auto|].
  exists (sep :: dshow sep (d :: l)). split; [|right; eauto].
  change (dshow sep (c :: d :: l)) with (dshow1 sep c ++ sep_after sep c ++ dshow sep (d :: l)).
  destruct c; simpl in OK; try contradiction; reflexivity.
Qed.
Lemma dshow_head c l : comp_ok slash c -> exists x r, dshow slash (c :: l) = x :: r /\ x <> slash.
Proof.
  intros OK. destruct (dshow_split slash c l OK) as (t & -> & _).
  destruct c; simpl in OK; try contradiction; cbn [dshow1 show1].
  - destruct OK as [_ [->| ->]]; eexists _, _; (split; [reflexivity|discriminate]).
  - eexists _, _; (split; [reflexivity|discriminate]).
  - eexists _, _; (split; [reflexivity|discriminate]).
  - destruct OK as (NE & N & _). destruct s as [|x s]; [congruence|]. eexists _, _. split; [reflexivity|].
    intros ->. apply N. left. reflexivity.
Qed.
Lemma body_dshow (root : bool) l : Forall (comp_ok slash) l ->
  body slash (dshow slash ((if root then [Root] else []) ++ l)) = (if root then [Root] else []) ++ l.
Proof.
  intros F. assert (SL : sep_legal slash) by (left; reflexivity). destruct root; cbn [app].
  - destruct l as [|d l]; [reflexivity|].
    change (dshow slash (Root :: d :: l)) with (slash :: dshow slash (d :: l)). unfold body. rewrite Ascii.eqb_refl.
    change (flat_map segment (split_byte slash (dshow slash (d :: l)))) with (parts slash (dshow slash (d :: l))).
    rewrite dshow_parts by assumption. reflexivity.
  - destruct l as [|c l]; [reflexivity|]. inversion F as [|? ? OK _]; subst.
    destruct (dshow_head c l OK) as (x & r & E & N).
    rewrite <- (dshow_parts slash (c :: l) SL F) at 2. rewrite E. unfold body.
    apply Ascii.eqb_neq in N. rewrite N. reflexivity.
Qed.
Lemma dshow_no_bslash l : Forall (fun c => forall x, In x (show1 slash c) -> x <> bslash) l -> ~ In bslash (dshow slash l).
Proof.
  assert (G : forall c, (forall x, In x (show1 slash c) -> x <> bslash) -> ~ In bslash (dshow1 slash c)).
  { intros c H I. destruct c; try (apply (H bslash I); reflexivity).
    cbn [dshow1] in I. apply in_app_iff in I as [I|I].
    - apply (H bslash); [|reflexivity]. cbn [show1]. apply in_app_iff. left. exact I.
    - destruct I as [I|[]]; discriminate. }
  induction l as [|c [|d l] IH]; intro F; [intros []| |].
  - inversion F as [|? ? H _]; subst. apply G, H.
  - inversion F as [|? ? H F']; subst.
    change (dshow slash (c :: d :: l)) with (dshow1 slash c ++ sep_after slash c ++ dshow slash (d :: l)).
    rewrite !in_app_iff. intros [I|[I|I]].
    + apply (G c H I).
    + destruct c; simpl in I; try destruct I as [I|[]]; try contradiction; discriminate.
    + apply IH; assumption.
Qed.
Lemma removelast_In {A} (l : list A) x : In x (removelast l) -> In x l.
Proof.
  induction l as [|y [|z l] IH]; [intros []|intros []|]. intros [->|I]; [left; reflexivity|right; apply IH, I].
Qed.
Lemma removelast_cons {A} (x : A) l : l <> [] -> removelast (x :: l) = x :: removelast l.
Proof. destruct l; [congruence|reflexivity]. Qed.

Lemma dirname_unix s : ~ In bslash s -> ~ has_drive s -> components (new s) <> [Root] ->
  components (new (dirname (new s))) = removelast (components (new s)).
Proof.
  intros NB ND NR. rewrite (new_unix s NB ND) in NR |- *. cbn [components] in NR.
  destruct (body_shape slash s) as (root & l & E & EL & R1 & R2).
  assert (SL : sep_legal slash) by (left; reflexivity).
  assert (F : Forall (comp_ok slash) l) by (subst l; apply parts_ok; reflexivity).
  assert (NB' : ~ In bslash (if root then tl s else s)).
  { destruct root; [|exact NB]. destruct (R1 eq_refl) as (r & ->). simpl. intro I. apply NB. right. exact I. }
  assert (C : Forall (fun c => forall x, In x (show1 slash c) -> x <> bslash) l).
  { apply Forall_forall. intros c Ic x Ix. subst l.
    destruct (parts_chars slash _ c x Ic Ix) as [I|[->|[->| ->]]]; try discriminate.
    intros ->. contradiction. }
  assert (D : dirname (mkPath slash (body slash s)) = dshow slash ((if root then [Root] else []) ++ removelast l)).
  { unfold dirname. cbn [components separator]. rewrite E in NR |- *. destruct root; cbn [app] in *.
    - destruct l as [|c l]; [congruence|]. destruct c; reflexivity.
    - destruct l as [|c l]; [reflexivity|]. inversion F as [|? ? OK F']; subst.
      destruct c; simpl in OK; try contradiction; try reflexivity. }
  rewrite D. cbn [components].
  assert (F' : Forall (comp_ok slash) (removelast l)).
  { apply Forall_forall. intros c I. rewrite Forall_forall in F. apply F, removelast_In, I. }
  rewrite new_unix; cbn [components].
  - rewrite body_dshow by exact F'. rewrite E. destruct root; cbn [app]; [|reflexivity].
    rewrite E in NR. destruct l; [exfalso; apply NR; reflexivity|]. reflexivity.
  - apply dshow_no_bslash. assert (C' : Forall (fun c => forall x, In x (show1 slash c) -> x <> bslash) (removelast l)).
    { apply Forall_forall. intros c I. rewrite Forall_forall in C. apply C, removelast_In, I. }
    destruct root; cbn [app]; [|exact C']. constructor; [|exact C']. intros x [<-|[]]. discriminate.
  - intros (a & r & EH & A). destruct root; cbn [app] in EH.
    + destruct (removelast l) as [|d l']; [discriminate|].
      change (dshow slash (Root :: d :: l')) with (slash :: dshow slash (d :: l')) in EH.
      injection EH as <- _. vm_compute in A. lia.
    + destruct l as [|c l]; [discriminate|]. destruct l as [|d l]; [discriminate|].
      rewrite removelast_cons in EH, F' by discriminate.
      inversion F' as [|? ? OK _]; subst.
      destruct (dshow_split slash c (removelast (d :: l)) OK) as (t & Et & Ht). rewrite Et in EH.
      destruct c; simpl in OK; try contradiction; cbn [dshow1 show1] in EH.
      * destruct OK as [_ [->| ->]]; discriminate.
      * injection EH as <- EH. vm_compute in A. lia.
      * injection EH as <- EH. vm_compute in A. lia.
      * symmetry in EL. apply (parts_first_drive slash s (Normal s0) (d :: l) SL ND (R2 eq_refl) EL s0 eq_refl).
        destruct OK as (NE & N & _). destruct s0 as [|x [|y s0]]; [congruence| |].
        -- exfalso. simpl in EH. injection EH as <- EH. destruct Ht as [->|(u & ->)]; discriminate.
        -- simpl in EH. injection EH as -> -> _. exists a, (s0 ++ [slash]). split; [reflexivity|exact A].
Qed.
