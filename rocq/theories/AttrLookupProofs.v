(** Proofs for C80. *)
From Verif Require Import Base AttrLookupModel AttrLookupSpec.
From Verif Require BlockModel.
Import ListNotations.

Lemma find_map_first {A B} (f : A -> option B) (says : A -> B -> Prop) (H : forall a b, f a = Some b <-> says a b) l : first_to_say says l (find_map f l).
Proof.
  induction l as [|a l IH]; cbn [find_map].
  { cbn. tauto. }
  destruct (f a) as [b|] eqn:E.
  { cbn. exists [], a, l. split; [reflexivity|]. split; [now apply H|]. cbn. tauto. }
  assert (N : forall c, ~ says a c) by (intros c S; apply H in S; congruence).
  destruct (find_map f l) as [b|]; cbn in IH |- *.
  - destruct IH as (u & x & v & -> & S & F). exists (a :: u), x, v. split; [reflexivity|]. split; [exact S|].
    intros y c [<-|I]; [apply N|now apply F].
  - intros y c [<-|I]; [apply N|now apply IH].
Qed.

Lemma single_text_is v x : single_text v = Some x <-> v = [Word x].
Proof. split; [|intros ->; reflexivity]. destruct v as [|[y|] [|? ?]]; cbn; congruence. Qed.

Lemma str_positional1_is n a x : str_positional1 n a = Some x <-> places n a x.
Proof.
  unfold str_positional1, places. destruct (nth_error (positional a) n) as [[v|]|].
  - rewrite single_text_is. split; [intros ->; reflexivity|]. intros E. now injection E.
  - split; discriminate.
  - split; discriminate.
Qed.
Lemma str_positional1_none n a : str_positional1 n a = None <-> forall y, ~ places n a y.
Proof.
  split.
  - intros E y P. apply str_positional1_is in P. congruence.
  - intros H. destruct (str_positional1 n a) as [y|] eqn:E; [|reflexivity]. apply str_positional1_is in E. destruct (H y E).
Qed.

Lemma places_eq n a x y : places n a x -> places n a y -> x = y.
Proof. unfold places. intros A B. rewrite A in B. now injection B. Qed.

Lemma assoc_is key (l : list (bytes * value)) v :
  find_map (fun p => if bytes_eqb (fst p) key then Some (snd p) else None) l = Some v <-> exists u w, l = u ++ (key, v) :: w /\ ~ In key (map fst u).
Proof.
  induction l as [|[k y] l IH]; cbn [find_map].
  { split; [discriminate|]. intros (u & w & E & _). destruct u; discriminate E. }
  cbn [fst snd]. destruct (bytes_eqb k key) eqn:E.
  - apply bytes_eqb_eq in E. subst k. split.
    + intros [= <-]. exists [], l. split; [reflexivity|]. cbn. tauto.
    + intros (u & w & L & N). destruct u as [|q u]; [now injection L as -> _|]. injection L as <- L. cbn in N. tauto.
  - assert (NE : k <> key) by (intros ->; rewrite bytes_eqb_refl in E; discriminate). rewrite IH. split.
    + intros (u & w & -> & N). exists ((k, y) :: u), w. split; [reflexivity|]. cbn. tauto.
    + intros (u & w & L & N). destruct u as [|q u]; [injection L; congruence|]. injection L as <- ->. exists u, w. cbn in N. split; [reflexivity|tauto].
Qed.
Lemma named_nodes1_is key a v : named_nodes1 key a = Some v <-> sets a key v.
Proof. apply assoc_is. Qed.

Definition text_value (v : value) : option bytes := match v with [] => Some [] | _ => single_text v end.
Lemma text_value_is v x : text_value v = Some x <-> reads v x.
Proof.
  unfold text_value, reads. destruct v as [|p v].
  - split; [intros [= <-]; now left|]. intros [(_ & ->)|E]; [reflexivity|discriminate].
  - rewrite single_text_is. split; [tauto|]. intros [(E & _)|E]; [discriminate|exact E].
Qed.
Lemma named1_is key a x : named1 key a = Some x <-> names key a x.
Proof.
  assert (E : named1 key a = match named_nodes1 key a with Some v => text_value v | None => None end).
  { unfold named1, text_value. destruct (named_nodes1 key a) as [[|? ?]|]; reflexivity. }
  rewrite E. unfold names. split.
  - destruct (named_nodes1 key a) as [v|] eqn:N; [|discriminate]. intros T. exists v. split; [now apply named_nodes1_is|now apply text_value_is].
  - intros (v & S & R). apply named_nodes1_is in S. rewrite S. now apply text_value_is.
Qed.

Lemma bare_false a : bare a = false <-> shorthand a.
Proof.
  unfold bare, shorthand, is_none, is_nil. destruct (id a), (roles a), (options a); cbn; split; try discriminate; try tauto; intros _; intuition discriminate.
Qed.

Lemma source_language1_is a x : source_language1 a = Some x <-> speaks a x.
Proof.
  unfold source_language1, speaks.
  destruct (str_positional1 0 a) as [p|] eqn:E0.
  - apply str_positional1_is in E0.
    assert (U : forall y, places 0 a y -> y = p) by (intros; eapply places_eq; eassumption).
    destruct (bytes_eqb p $"source") eqn:ES.
    + apply bytes_eqb_eq in ES. subst p. destruct (str_positional1 1 a) as [q|] eqn:E1.
      * apply str_positional1_is in E1. split.
        { intros [= <-]. left. auto. }
        { intros [(P & _)|(P & _ & _ & N)]; [f_equal; eapply places_eq; eassumption|]. destruct N. split; [now apply U|now exists q]. }
      * assert (N1 := proj1 (str_positional1_none 1 a) E1). cbn [bytes_eqb]. destruct (bytes_eqb $"source" $"listing") eqn:C; [vm_compute in C; discriminate|].
        destruct (bare a) eqn:B.
        { split; [discriminate|]. intros [(P & _)|(_ & _ & S & _)]; [now apply N1 in P|]. apply bare_false in S. congruence. }
        { apply bare_false in B. split.
          - intros [= <-]. right. split; [exact E0|]. split; [intros K; vm_compute in K; discriminate|]. split; [exact B|]. intros (_ & y & P). now apply N1 in P.
          - intros [(P & _)|(P & _)]; [now apply N1 in P|]. now rewrite (U x P). }
    + assert (NS : p <> $"source") by (intros K; subst p; rewrite bytes_eqb_refl in ES; discriminate).
      assert (NL : forall y, ~ (places 1 a y /\ (places 0 a $"source" \/ (forall z, ~ places 0 a z)))).
      { intros y (_ & [S|S]); [apply U in S; congruence|now apply S in E0]. }
      destruct (bytes_eqb p $"listing") eqn:EL.
      * apply bytes_eqb_eq in EL. split; [discriminate|]. intros [P|(P & N & _)]; [now apply NL in P|]. apply U in P. congruence.
      * assert (NQ : p <> $"listing") by (intros K; subst p; rewrite bytes_eqb_refl in EL; discriminate).
        destruct (bare a) eqn:B.
        { split; [discriminate|]. intros [P|(_ & _ & S & _)]; [now apply NL in P|]. apply bare_false in S. congruence. }
        { apply bare_false in B. split.
          - intros [= <-]. right. split; [exact E0|]. split; [exact NQ|]. split; [exact B|]. tauto.
          - intros [P|(P & _)]; [now apply NL in P|]. now rewrite (U x P). }
  - assert (N0 := proj1 (str_positional1_none 0 a) E0). destruct (str_positional1 1 a) as [q|] eqn:E1.
    + apply str_positional1_is in E1. split.
      * intros [= <-]. left. auto.
      * intros [(P & _)|(P & _)]; [f_equal; eapply places_eq; eassumption|now apply N0 in P].
    + assert (N1 := proj1 (str_positional1_none 1 a) E1). split; [discriminate|]. intros [(P & _)|(P & _)]; [now apply N1 in P|now apply N0 in P].
Qed.

Lemma word_of (words : list bytes) a x :
  match str_positional1 0 a with Some x => if existsb (bytes_eqb x) words then Some x else None | None => None end = Some x <-> styles words a x.
Proof.
  unfold styles. destruct (str_positional1 0 a) as [p|] eqn:E.
  - apply str_positional1_is in E. destruct (existsb (bytes_eqb p) words) eqn:M.
    + apply existsb_exists in M as (q & I & Q). apply bytes_eqb_eq in Q. subst q. split; [intros [= <-]; auto|]. intros (P & _). f_equal. eapply places_eq; eassumption.
    + split; [discriminate|]. intros (P & I). assert (x = p) by (intros; eapply places_eq; eassumption). subst x.
      assert (existsb (bytes_eqb p) words = true); [|congruence]. apply existsb_exists. exists p. split; [exact I|apply bytes_eqb_refl].
  - split; [discriminate|]. intros (P & _). now apply (proj1 (str_positional1_none 0 a) E) in P.
Qed.

Lemma existsb_bytes x l : existsb (fun s => bytes_eqb s x) l = true <-> In x l.
Proof.
  rewrite existsb_exists. split; [intros (y & I & E); apply bytes_eqb_eq in E; now subst|]. intros I. exists x. split; [exact I|apply bytes_eqb_refl].
Qed.
Lemma has_str_positional1_is x a : has_str_positional1 x a = true <-> exists n, places n a x.
Proof.
  unfold has_str_positional1. rewrite existsb_exists. split.
  - intros (n & _ & T). exists n. apply str_positional1_is. unfold is_text in T. destruct (str_positional1 n a) as [y|]; [|discriminate]. apply bytes_eqb_eq in T. now subst.
  - intros (n & P). exists n. split.
    + apply in_seq. split; [apply Nat.le_0_l|]. cbn. apply nth_error_Some. unfold places in P. rewrite P. discriminate.
    + apply str_positional1_is in P. rewrite P. cbn. apply bytes_eqb_refl.
Qed.
Lemma roles1_is x a : In x (roles1 a) <-> In x (roles a) /\ x <> [].
Proof. unfold roles1. rewrite filter_In. destruct x; cbn; intuition congruence. Qed.

Lemma is_source1_is a : is_source1 a = true <-> places 0 a $"source" \/ exists x, speaks a x.
Proof.
  unfold is_source1. destruct (is_text (str_positional1 0 a) $"source") eqn:T; cbn [orb].
  { split; [|reflexivity]. intros _. left. apply str_positional1_is. unfold is_text in T. destruct (str_positional1 0 a); [|discriminate]. apply bytes_eqb_eq in T. now subst. }
  assert (NP : ~ places 0 a $"source").
  { intros P. apply str_positional1_is in P. rewrite P in T. vm_compute in T. discriminate. }
  destruct (source_language1 a) as [x|] eqn:L; cbn [is_none negb].
  { split; [|reflexivity]. intros _. right. exists x. now apply source_language1_is. }
  split.
  - destruct (bare a) eqn:B; [discriminate|]. destruct (str_positional1 0 a) as [p|] eqn:E0; [|discriminate]. intros N. right. exists p. apply source_language1_is.
    unfold source_language1 in L |- *. rewrite E0 in L |- *. unfold is_text in T. rewrite T in L |- *. apply negb_true_iff in N. rewrite N in L. rewrite B in L. discriminate L.
  - intros [P|(x & S)]; [destruct (NP P)|]. apply source_language1_is in S. congruence.
Qed.

(** ** One line or several *)
Lemma find_map_app {A B} (f : A -> option B) u v : find_map f (u ++ v) = or_else (find_map f u) (find_map f v).
Proof. induction u as [|a u IH]; cbn; [reflexivity|]. destruct (f a); [reflexivity|exact IH]. Qed.
Lemma named_nodes_flat key l : find_map (fun p => if bytes_eqb (fst p) key then Some (snd p) else None) (flat_map named l) = named_nodes key l.
Proof.
  induction l as [|a l IH]; cbn [flat_map]; [reflexivity|]. rewrite find_map_app, IH. unfold named_nodes at 2. cbn [find_map].
  fold (named_nodes1 key a). destruct (named_nodes1 key a); reflexivity.
Qed.
Lemma named_flat key l : Forall plain l -> get_named key l = named1 key (on_one_line l).
Proof.
  intros P. assert (E : forall a, named1 key a = match named_nodes1 key a with Some v => text_value v | None => None end).
  { intros a. unfold named1, text_value. destruct (named_nodes1 key a) as [[|? ?]|]; reflexivity. }
  rewrite E. unfold named_nodes1, on_one_line. cbn [named]. rewrite named_nodes_flat. clear E.
  induction P as [|a l PA P IH]; [reflexivity|]. unfold get_named, named_nodes in *. cbn [find_map].
  destruct (named_nodes1 key a) as [v|] eqn:N.
  - assert (S := proj1 (named_nodes1_is key a v) N). destruct S as (u & w & L & _). destruct (PA key v) as (x & R); [rewrite L; apply in_elt|].
    apply text_value_is in R. rewrite R. assert (X : named1 key a = Some x) by (unfold named1; rewrite N; destruct v; exact R). now rewrite X.
  - unfold named1. rewrite N. exact IH.
Qed.
Lemma flat_exists {A} (f : A -> bool) (g : attr_list -> list A) l : existsb (fun a => existsb f (g a)) l = existsb f (flat_map g l).
Proof. induction l as [|a l IH]; cbn; [reflexivity|]. now rewrite existsb_app, IH. Qed.
Lemma roles_flat l : all_roles l = roles1 (on_one_line l).
Proof.
  unfold all_roles, roles1, on_one_line. cbn [roles]. induction l as [|a l IH]; cbn [flat_map]; [reflexivity|]. rewrite filter_app. f_equal. exact IH.
Qed.

(** ** The kinds of blocks *)
Lemma derive_is x k : BlockModel.derive x = Some k <-> In (x, k) kind_words.
Proof.
  split.
  - unfold BlockModel.derive, BlockModel.admonition.
    repeat match goal with |- (if bytes_eqb x ?w then _ else _) = _ -> _ => let E := fresh in destruct (bytes_eqb x w) eqn:E; [apply bytes_eqb_eq in E; subst x; intros [= <-]; cbn; tauto|] end.
    destruct (bytes_eqb x $"listing" || bytes_eqb x $"source") eqn:EL.
    { apply orb_true_iff in EL as [K|K]; apply bytes_eqb_eq in K; subst x; intros [= <-]; cbn; tauto. }
    repeat match goal with |- (if bytes_eqb x ?w then _ else _) = _ -> _ => let E := fresh in destruct (bytes_eqb x w) eqn:E; [apply bytes_eqb_eq in E; subst x; intros [= <-]; cbn; tauto|] end.
    destruct (existsb (bytes_eqb x) _) eqn:EX; [|discriminate]. intros [= <-]. apply existsb_exists in EX as (y & I & Y). apply bytes_eqb_eq in Y. subst y.
    cbn in I. repeat destruct I as [<-|I]; [..|destruct I]; cbn; tauto.
  - intros I. cbn in I. repeat (destruct I as [[= <- <-]|I]; [vm_compute; reflexivity|]). destruct I.
Qed.
Lemma block_style1_is c a k : block_style1 c a = Some k <-> turns c a k.
Proof.
  unfold block_style1, turns. destruct (str_positional1 0 a) as [p|] eqn:E.
  - apply str_positional1_is in E. destruct (BlockModel.derive p) as [m|] eqn:D.
    + assert (X : (exists x, places 0 a x /\ In (x, k) kind_words /\ may_become c k) <-> k = m /\ may_become c m).
      { split.
        - intros (x & P & I & B). rewrite <- (places_eq 0 a p x E P) in I. apply derive_is in I. assert (k = m) by congruence. now subst.
        - intros (-> & B). exists p. split; [exact E|]. split; [now apply derive_is|exact B]. }
      rewrite X. unfold may_become. split.
      * intros H. destruct c, m; try discriminate H; injection H as <-; (split; [reflexivity|]); intuition eauto 10.
      * intros (-> & H). destruct H as [->|[->|[(-> & ->)|[(-> & ->)|[(-> & ->)|(-> & x & ->)]]]]]; try reflexivity.
    + split; [discriminate|]. intros (x & P & I & _). rewrite <- (places_eq 0 a p x E P) in I. apply derive_is in I. congruence.
  - split; [discriminate|]. intros (x & P & _). now apply (proj1 (str_positional1_none 0 a) E) in P.
Qed.
Lemma positional1_is n a v : positional1 n a = Some v <-> nth_error (positional a) n = Some (Some v).
Proof. unfold positional1. destruct (nth_error (positional a) n) as [o|]; split; congruence. Qed.

(** ** The lists of the block parser *)
Lemma find_map_map {A B C} (f : B -> option C) (g : A -> B) l : find_map f (map g l) = find_map (fun x => f (g x)) l.
Proof. induction l as [|x l IH]; cbn; [reflexivity|]. now destruct (f (g x)). Qed.
Lemma find_map_same {A B} (f g : A -> option B) l : (forall x, f x = g x) -> BlockModel.find_map f l = find_map g l.
Proof. intros E. induction l as [|x l IH]; cbn; [reflexivity|]. rewrite E. now destruct (g x). Qed.
Lemma str_at_as n a : BlockModel.str_at n a = str_positional1 n (as_parsed a).
Proof. unfold BlockModel.str_at, str_positional1, as_parsed. cbn [positional]. rewrite nth_error_map. now destruct (nth_error (AttrListModel.positional a) n) as [[v|]|]. Qed.
Lemma named_as key a : find_map (fun p => if bytes_eqb (fst p) key then Some (LineModel.text_of (snd p)) else None) (AttrListModel.named a) = named1 key (as_parsed a).
Proof.
  unfold named1, named_nodes1, as_parsed. cbn [named]. rewrite find_map_map. cbn [fst snd].
  induction (AttrListModel.named a) as [|p l IH]; cbn [find_map]; [reflexivity|]. destruct (bytes_eqb (fst p) key); [reflexivity|exact IH].
Qed.
Lemma existsb_map {A B} (f : B -> bool) (g : A -> B) l : existsb f (map g l) = existsb (fun x => f (g x)) l.
Proof. induction l; cbn; congruence. Qed.
Lemma existsb_same {A} (f g : A -> bool) l : (forall x, f x = g x) -> existsb f l = existsb g l.
Proof. intros E. induction l; cbn; congruence. Qed.
Lemma has_as x a : existsb (fun o => match o with Some v => bytes_eqb (LineModel.text_of v) x | None => false end) (AttrListModel.positional a) = has_str_positional1 x (as_parsed a).
Proof.
  apply eq_true_iff_eq. rewrite has_str_positional1_is, existsb_exists. unfold places, as_parsed. cbn [positional]. split.
  - intros ([v|] & I & E); [|discriminate]. apply bytes_eqb_eq in E. apply In_nth_error in I as (n & I). exists n. rewrite nth_error_map, I. cbn. now rewrite E.
  - intros (n & P). rewrite nth_error_map in P. destruct (nth_error (AttrListModel.positional a) n) as [[v|]|] eqn:N; try discriminate. cbn in P. injection P as P.
    exists (Some v). split; [eapply nth_error_In; exact N|]. now apply bytes_eqb_eq.
Qed.
Lemma masquerade_as c a : BlockModel.masquerade c a = block_style1 c (as_parsed a).
Proof. unfold BlockModel.masquerade, block_style1. rewrite str_at_as. reflexivity. Qed.
