(** Proofs about C54, second part: what the pieces that the handlers write do to the scanner. *)
From Coq Require Import DecimalString.
From Verif Require Import Base AttrsModel EvalModel EscapeModel EvalSpec HtmlModel HtmlSpec HtmlScanProofs.
Open Scope string_scope.
Open Scope nat_scope.
Open Scope list_scope.

Lemma scan_opt q o f : (forall s, pscan q (f s) = Some q) -> pscan q (opt_pieces o f) = Some q.
Proof. intros H. destruct o; [apply H|reflexivity]. Qed.
Lemma scan_if q c ps : pscan q ps = Some q -> pscan q (if_pieces c ps) = Some q.
Proof. intros H. destruct c; [exact H|reflexivity]. Qed.
Lemma scan_flat {T} q (f : T -> pieces) l : (forall a, pscan q (f a) = Some q) -> pscan q (flat_map f l) = Some q.
Proof. intros H. induction l as [|a l IH]; [reflexivity|]. cbn [flat_map]. eapply pscan_seq; [apply H|exact IH]. Qed.
Ltac lit := lazy; reflexivity.

(** ** Attributes of a tag *)
Definition intag (n : bytes) (m : mode) : Prop := m = Name n \/ m = Tag n.
Definition attrs_ok (ps : pieces) : Prop := forall n m X, intag n m -> exists m', intag n m' /\ pscan (m, X) ps = Some (m', X).
Lemma attrs_nil : attrs_ok [].
Proof. intros n m X H. exists m. now split. Qed.
Lemma attrs_app x y : attrs_ok x -> attrs_ok y -> attrs_ok (x ++ y).
Proof. intros A B n m X H. destruct (A n m X H) as (m1 & H1 & E1). destruct (B n m1 X H1) as (m2 & H2 & E2). exists m2. split; [exact H2|]. now rewrite pscan_app, E1. Qed.
Lemma attrs_opt o f : (forall s, attrs_ok (f s)) -> attrs_ok (opt_pieces o f).
Proof. intros H. destruct o; [apply H|apply attrs_nil]. Qed.
Lemma attrs_if c ps : attrs_ok ps -> attrs_ok (if_pieces c ps).
Proof. intros H. destruct c; [exact H|apply attrs_nil]. Qed.
Lemma attrs_to ps : (forall n X, pscan (Name n, X) ps = Some (Tag n, X) /\ pscan (Tag n, X) ps = Some (Tag n, X)) -> attrs_ok ps.
Proof. intros H n m X [->| ->]; exists (Tag n); (split; [now right|]); apply H. Qed.
Lemma attrs_end ps n m X : attrs_ok ps -> intag n m -> pscan (m, X) (ps ++ [Lit ">"]) = Some (Out, opens n X).
Proof. intros A H. destruct (A n m X H) as (m1 & [->| ->] & E); rewrite pscan_app, E; reflexivity. Qed.
(** names of attributes in the code *)
Definition attr_name (name : string) : Prop := forall n X, pscan (Name n, X) [Lit (" " ++ name ++ "=""")%string] = Some (Val n, X) /\ pscan (Tag n, X) [Lit (" " ++ name ++ "=""")%string] = Some (Val n, X).
Ltac lit2 := intros; split; lit.
Lemma attrs_attr name v : attr_name name -> attrs_ok (html_attr name v).
Proof.
  intros H. apply attrs_to. intros n X. destruct (H n X) as [H1 H2]. unfold html_attr.
  change [Lit (" " ++ name ++ "=""")%string; EscVal v; Lit """"] with ([Lit (" " ++ name ++ "=""")%string] ++ [EscVal v; Lit """"]).
  split; [eapply pscan_seq; [exact H1|reflexivity]|eapply pscan_seq; [exact H2|reflexivity]].
Qed.
Lemma attrs_named D name d : attr_name name -> attrs_ok (named_attr D name d).
Proof. intros H. apply attrs_opt. intros s. now apply attrs_attr. Qed.
Lemma attrs_pos D name p d : attr_name name -> attrs_ok (named_or_pos_attr D name p d).
Proof. intros H. apply attrs_opt. intros s. now apply attrs_attr. Qed.
Lemma attrs_link D d : attrs_ok (link_constraint_attrs D d).
Proof.
  unfold link_constraint_attrs. destruct (n_named D d "window") as [w|].
  - apply attrs_to. intros n X. destruct (w =? "_blank")%string, (n_option D d "noopener"), (n_option D d "nofollow"); split; lit.
  - apply attrs_if, attrs_to. lit2.
Qed.

(** ** Opening tags *)
Definition tag_ok (n : bytes) (t : otag) : Prop := forall X, exists m, pscan (Out, X) (o_buf t) = Some (m, X) /\ if o_open t then m = Val n else intag n m.
Definition starts (e : string) : Prop := forall X, pscan (Out, X) [Lit ("<" ++ e)%string] = Some (Name (b e), X).
Lemma ok_none e : starts e -> tag_ok (b e) (no_attrs e).
Proof. intros H X. exists (Name (b e)). split; [apply H|now left]. Qed.
Lemma ok_put n t ps : o_open t = false -> attrs_ok ps -> tag_ok n t -> tag_ok n (o_put ps t).
Proof.
  intros O A T X. destruct (T X) as (m & E & H). rewrite O in H. destruct (A n m X H) as (m' & H' & E'). exists m'. unfold o_put. cbn [o_buf o_open]. rewrite O. split; [|exact H'].
  now rewrite pscan_app, E.
Qed.
Lemma ok_eq n t t' : o_buf t' = o_buf t -> o_open t' = o_open t -> tag_ok n t -> tag_ok n t'.
Proof. intros E F T X. rewrite E, F. apply T. Qed.
Lemma ok_id n id i r e : n = b e -> starts e -> tag_ok n (o_new_with_id id e i r) /\ o_open (o_new_with_id id e i r) = false.
Proof.
  intros -> S. unfold o_new_with_id.
  assert (T : tag_ok (b e) (if id then o_put (opt_pieces i (html_attr "id")) (no_attrs e) else no_attrs e) /\ o_open (if id then o_put (opt_pieces i (html_attr "id")) (no_attrs e) else no_attrs e) = false).
  { destruct id; (split; [|reflexivity]); [|now apply ok_none]. apply ok_put; [reflexivity| |now apply ok_none]. apply attrs_opt. intros s. apply attrs_attr. lit2. }
  destruct T as [T O]. destruct (filter _ r); (split; [|exact O]); [exact T|]. eapply ok_eq; [..|exact T]; reflexivity.
Qed.
Lemma ok_classes_open n t : tag_ok n t -> tag_ok n (o_open_classes t) /\ o_open (o_open_classes t) = true.
Proof.
  intros T. unfold o_open_classes. destruct (o_open t) eqn:O; (split; [|first [exact O|reflexivity]]); intros X; destruct (T X) as (m & E & H); rewrite O in H; unfold o_put; cbn [o_buf o_open]; rewrite ?O; exists (Val n);
    (split; [|reflexivity]); rewrite pscan_app, E; [subst m; lit|destruct H as [->| ->]; lit].
Qed.
Lemma ok_val n t l : o_open t = true -> tag_ok n t -> tag_ok n (o_put (map RawVal l) t).
Proof.
  intros O T X. destruct (T X) as (m & E & H). rewrite O in H. subst m. exists (Val n). unfold o_put. cbn [o_buf o_open]. rewrite O. split; [|reflexivity].
  rewrite pscan_app, E. induction l as [|s l IH]; [reflexivity|exact IH].
Qed.
Lemma ok_class n p c t : tag_ok n t -> tag_ok n (o_class p c t).
Proof. intros T. apply ok_classes_open in T as [T O]. exact (ok_val n _ [p; c] O T). Qed.
Lemma ok_opt_class n p c t : tag_ok n t -> tag_ok n (o_opt_class p c t).
Proof. intros T. destruct c; [now apply ok_class|exact T]. Qed.
Lemma ok_classes n l : forall t, tag_ok n t -> tag_ok n (o_classes l t).
Proof. induction l as [|c l IH]; intros t T; [exact T|]. apply IH. now apply ok_class. Qed.
Lemma ok_resolved D n a d p def k m t : tag_ok n t -> tag_ok n (o_resolved_class D a d p def k m t).
Proof. apply ok_opt_class. Qed.
Lemma ok_style n s t : tag_ok n t -> tag_ok n (o_style s t).
Proof. apply ok_eq; reflexivity. Qed.
Lemma ok_closed' n t : tag_ok n t -> tag_ok n (let t := if o_open t then o_put [Lit """"] t else t in Otag (o_buf t) false (o_append t) (o_styles t)).
Proof.
  intros T X. destruct (T X) as (m & E & H). cbv zeta. destruct (o_open t) eqn:O; cbn [o_buf o_open].
  - subst m. exists (Tag n). split; [|now right]. unfold o_put. cbn [o_buf]. rewrite pscan_app, E. reflexivity.
  - exists m. now split.
Qed.
Lemma ok_closed n t : tag_ok n t -> tag_ok n (o_finish_classes t) /\ o_open (o_finish_classes t) = false.
Proof.
  intros T. split; [|reflexivity].
  refine (ok_closed' n (match o_append t with Some a => let t := o_put [RawVal a] (o_open_classes t) in Otag (o_buf t) (o_open t) None (o_styles t) | None => t end) _).
  destruct (o_append t) as [a|]; [|exact T]. apply ok_classes_open in T as [T O]. cbv zeta. eapply ok_eq; [..|exact (ok_val n _ [a] O T)]; reflexivity.
Qed.
Definition unclosed (t : otag) : pieces := let t := o_finish_classes t in o_buf (o_put (opt_pieces (o_styles t) (html_attr "style")) t).
Lemma finish_eq t : o_finish t = unclosed t ++ [Lit ">"].
Proof. reflexivity. Qed.
Lemma ok_unclosed n t : tag_ok n t -> forall X, exists m, pscan (Out, X) (unclosed t) = Some (m, X) /\ intag n m.
Proof.
  intros T. apply ok_closed in T as [T O]. unfold unclosed. cbv zeta.
  assert (T' : tag_ok n (o_put (opt_pieces (o_styles (o_finish_classes t)) (html_attr "style")) (o_finish_classes t))).
  { apply ok_put; [exact O| |exact T]. apply attrs_opt. intros s. apply attrs_attr. lit2. }
  intros X. destruct (T' X) as (m & E & H). change (o_open (o_put _ _)) with (o_open (o_finish_classes t)) in H. rewrite O in H. now exists m.
Qed.
Lemma ok_finish n t : tag_ok n t -> forall X, pscan (Out, X) (o_finish t) = Some (Out, opens n X).
Proof. intros T X. rewrite finish_eq. destruct (ok_unclosed n t T X) as (m & E & [->| ->]); rewrite pscan_app, E; reflexivity. Qed.
Lemma ok_link D n d txt bl t : tag_ok n t -> tag_ok n (o_link_attrs D d txt bl t) /\ o_open (o_link_attrs D d txt bl t) = false.
Proof.
  intros T. unfold o_link_attrs. cbv zeta. assert (T1 : tag_ok n (if txt then t else o_class "" "bare" t)) by (destruct txt; [exact T|now apply ok_class]).
  apply ok_closed in T1 as [T1 O1]. split; [|exact O1].
  apply ok_put; [exact O1| |].
  - destruct bl; [apply attrs_to; lit2|apply attrs_link].
  - apply ok_put; [exact O1| |exact T1]. apply attrs_opt. intros s. apply attrs_attr. lit2.
Qed.
Lemma scan_element D e l d : starts e -> forall X, pscan (Out, X) (open_element D e l d) = Some (Out, opens (b e) X).
Proof. intros S. apply ok_finish, ok_classes. now apply ok_id. Qed.
Lemma scan_element_opt D e d X : starts e -> pscan (Out, X) [Lit ("<" ++ e ++ ">")%string] = Some (Out, opens (b e) X) -> pscan (Out, X) (open_element_opt D e d) = Some (Out, opens (b e) X).
Proof. intros S E. unfold open_element_opt. destruct (n_flag D d "attrs"); [now apply scan_element|exact E]. Qed.
Ltac starts := let X := fresh in intros X; lit.

(** ** Names of headings *)
Definition hn (n : nat) : bytes := b "h" ++ b (dec n).
Lemma hn_not_void n : is_void (hn n) = false.
Proof.
  destruct (is_void (hn n)) eqn:V; [|reflexivity]. exfalso. apply void_in in V. unfold hn, void_elements in V. cbn in V.
  assert (F : forallb (fun c => negb (Ascii.eqb c "r")) (b (dec n)) = true).
  { pose proof (dec_names n) as N. unfold dec, NilZero.string_of_uint in *. destruct (Nat.to_uint n) as [|u|u|u|u|u|u|u|u|u|u]; try reflexivity; cbn; clear; induction u; cbn; auto. }
  repeat match type of V with _ \/ _ => destruct V as [V|V] | False => destruct V end; try discriminate V. injection V as V. rewrite <- V in F. discriminate F.
Qed.
Lemma opens_hn n X : opens (hn n) X = hn n :: X.
Proof. unfold opens. now rewrite hn_not_void. Qed.
Lemma scan_h_plain n X : pscan (Out, X) [Lit "<h"; Num n; Lit ">"] = Some (Out, hn n :: X).
Proof. rewrite <- opens_hn. reflexivity. Qed.
Lemma scan_h_end n X : pscan (Out, hn n :: X) [Lit "</h"; Num n; Lit ">"] = Some (Out, X).
Proof.
  eapply (pscan_seq _ (CName (hn n), hn n :: X) _ [Lit "</h"; Num n] [Lit ">"]); [reflexivity|].
  change (match (match (if bytes_eqb (hn n) (hn n) then Some (Out, X) else None) with Some q => scan q [] | None => None end) with Some q => pscan q [] | None => None end = Some (Out, X)). now rewrite bytes_eqb_refl.
Qed.
