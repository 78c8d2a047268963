(** Lemmas for AuthorLineProps. *)
From Coq Require Import Lia.
From Verif Require Import Base Text Unicode CollectTextModel AuthorLineModel AuthorLineSpec.

(** ** Runs of a class *)
(** the places in and after [t] a run can end, the last first *)
Fixpoint cuts (p : option N) (t r : text) (c : list (nat * text)) : list rstate :=
  match t with [] => [RS p r c] | x :: t' => cuts (Some x) t' r c ++ [RS p (x :: t' ++ r) c] end.
Definition stops (f : N -> bool) (r : text) : Prop := match r with [] => True | c :: _ => f c = false end.
Lemma one_stops f p r c : stops f r -> one f (RS p r c) = [].
Proof. destruct r as [|x r]; cbn; [reflexivity|]. intros ->. reflexivity. Qed.
Lemma star_cuts f t : Forall (fun x => f x = true) t -> forall n p r c, stops f r -> length t <= n -> star_ n (one f) (RS p (t ++ r) c) = cuts p t r c.
Proof.
  induction 1 as [|x t X _ IH]; intros n p r c S L.
  - destruct n as [|n]; [reflexivity|]. cbn [star_ app cuts]. rewrite (one_stops f p r c S). reflexivity.
  - destruct n as [|n]; [cbn in L; lia|]. cbn [star_ app cuts]. unfold one at 2. cbn [rest caps]. rewrite X. cbn [flat_map]. rewrite app_nil_r, IH; [reflexivity|exact S|cbn in L; lia].
Qed.
Lemma star_run f t p r c : Forall (fun x => f x = true) t -> stops f r -> star (one f) (RS p (t ++ r) c) = cuts p t r c.
Proof. intros F S. unfold star. cbn [rest]. apply star_cuts; [exact F|exact S|]. rewrite app_length. lia. Qed.
Lemma plus_run f x t p r c : f x = true -> Forall (fun x => f x = true) t -> stops f r -> plus (one f) (RS p (x :: t ++ r) c) = cuts (Some x) t r c.
Proof. intros X F S. unfold plus, seq. unfold one at 2. cbn [rest caps]. rewrite X. cbn [flat_map]. rewrite app_nil_r. apply star_run; assumption. Qed.
Lemma plus_stops f p r c : stops f r -> plus (one f) (RS p r c) = [].
Proof. intro S. unfold plus, seq. rewrite (one_stops f p r c S). reflexivity. Qed.
Lemma cuts_app p t1 x t2 r c : cuts p (t1 ++ x :: t2) r c = cuts (Some x) t2 r c ++ cuts p t1 (x :: t2 ++ r) c.
Proof.
  revert p. induction t1 as [|y t1 IH]; intro p; [reflexivity|]. cbn [app cuts]. rewrite IH, <- app_assoc. f_equal. f_equal. f_equal. f_equal. rewrite <- app_assoc. reflexivity.
Qed.
Definition end_of (p : option N) (t : text) : option N := match t with [] => p | _ => Some (last t 0%N) end.
Lemma cuts_head p t r c : exists l, cuts p t r c = RS (end_of p t) r c :: l.
Proof.
  revert p. induction t as [|x t IH]; intro p; [exists []; reflexivity|]. cbn [cuts]. destruct (IH (Some x)) as [l ->]. exists (l ++ [RS p (x :: t ++ r) c]).
  destruct t; reflexivity.
Qed.
(** what is found first *)
Definition finds (a : regex) (s e : rstate) : Prop := exists l, a s = e :: l.
Lemma seq_finds a b s x e : finds a s x -> finds b x e -> finds (seq a b) s e.
Proof. intros [l A] [m B]. unfold finds, seq. rewrite A. cbn [flat_map]. rewrite B. eexists. reflexivity. Qed.
Lemma maybe_finds a s e : finds a s e -> finds (maybe a) s e.
Proof. intros [l A]. unfold finds, maybe. rewrite A. eexists. reflexivity. Qed.
Lemma maybe_skips a s : a s = [] -> finds (maybe a) s s.
Proof. intro A. unfold finds, maybe. rewrite A. eexists. reflexivity. Qed.
Lemma group_finds n a p x r c p' c' : finds a (RS p (x ++ r) c) (RS p' r c') -> finds (group n a) (RS p (x ++ r) c) (RS p' r ((n, x) :: c')).
Proof.
  intros [l A]. unfold finds, group. rewrite A. cbn [map rest prev caps]. eexists. f_equal. f_equal. f_equal. f_equal.
  rewrite app_length. replace (length x + length r - length r) with (length x + 0) by lia. rewrite firstn_app_2. cbn. apply app_nil_r.
Qed.
Lemma star_finds f t p r c : Forall (fun x => f x = true) t -> stops f r -> finds (star (one f)) (RS p (t ++ r) c) (RS (end_of p t) r c).
Proof. intros F S. unfold finds. rewrite (star_run f t p r c F S). apply cuts_head. Qed.
Lemma plus_finds f t p r c : t <> [] -> Forall (fun x => f x = true) t -> stops f r -> finds (plus (one f)) (RS p (t ++ r) c) (RS (end_of p t) r c).
Proof.
  intros N F S. destruct t as [|x t]; [destruct (N eq_refl)|]. inversion F; subst. unfold finds. cbn [app]. rewrite (plus_run f x t p r c H1 H2 S).
  destruct (cuts_head (Some x) t r c) as [l L]. exists l. rewrite L. destruct t; reflexivity.
Qed.
Lemma one_finds f x p r c : f x = true -> finds (one f) (RS p (x :: r) c) (RS (Some x) r c).
Proof. intro X. unfold finds, one. cbn [rest caps]. rewrite X. eexists. reflexivity. Qed.

(** ** Classes *)
Lemma not_in_true l w c : (forall x, In x l -> c <> x) -> (w = true -> is_white c = false) -> not_in l w c = true.
Proof.
  intros A B. unfold not_in. apply andb_true_iff. split.
  - apply negb_true_iff. destruct (existsb (N.eqb c) l) eqn:E; [|reflexivity]. apply existsb_exists in E. destruct E as (x & I & E). apply N.eqb_eq in E. destruct (A x I E).
  - destruct w; [rewrite (B eq_refl); reflexivity|reflexivity].
Qed.
Lemma not_in_sign l w c : In c l -> not_in l w c = false.
Proof. intro I. unfold not_in. assert (E : existsb (N.eqb c) l = true) by (apply existsb_exists; exists c; split; [exact I|apply N.eqb_refl]). rewrite E. reflexivity. Qed.
Lemma white_space : is_white space = true.
Proof. reflexivity. Qed.
Lemma plus_space p x r c : is_white x = false -> plus (one is_white) (RS p (space :: x :: r) c) = [RS (Some space) (x :: r) c].
Proof. intro X. exact (plus_run is_white space [] p (x :: r) c white_space (Forall_nil _) X). Qed.
Lemma all_Forall P (t : text) : all P t -> Forall P t.
Proof. intro A. apply Forall_forall. exact A. Qed.

(** ** After the first name *)
(** what follows a last name: the end, a semicolon, or an email *)
Definition tail_ok (t : text) : Prop := t = [] \/ (exists r, t = semi :: r) \/ exists r, t = space :: lt :: r.
Section AUTHOR.
Variable word : N -> bool.
Hypothesis WO : letters_ok word.
Lemma word_space : word space = false.
Proof. destruct (word space) eqn:E; [|reflexivity]. apply WO in E. destruct E as [E _]. discriminate E. Qed.
Lemma word_lt : word lt = false.
Proof. destruct (word lt) eqn:E; [|reflexivity]. apply WO in E. destruct E as [_ [E _]]. destruct (E eq_refl). Qed.
Lemma word_semi : word semi = false.
Proof. destruct (word semi) eqn:E; [|reflexivity]. apply WO in E. destruct E as [_ [_ E]]. destruct (E eq_refl). Qed.
Lemma tail_word t : tail_ok t -> match hd_error t with Some c => word c | None => false end = false.
Proof. intros [->|[[r ->]|[r ->]]]; cbn; [reflexivity|exact word_semi|exact word_space]. Qed.

(** in a last name the only boundary is its end *)
Lemma last_boundary t : Forall (fun c => word c = true) t -> forall x r c, word x = true -> match hd_error r with Some c => word c | None => false end = false ->
  flat_map (boundary word) (cuts (Some x) t r c) = [RS (end_of (Some x) t) r c].
Proof.
  induction 1 as [|y t Y _ IH]; intros x r c X R.
  - cbn [cuts flat_map end_of]. unfold boundary. cbn [prev rest]. rewrite X, R. reflexivity.
  - cbn [cuts]. rewrite flat_map_app, IH by assumption. cbn [flat_map]. unfold boundary at 1. cbn [prev rest hd_error]. rewrite X, Y. cbn [Bool.eqb app].
    destruct t; reflexivity.
Qed.

Definition middle_re : regex := group 2 (seq (plus (one is_white)) (group 3 (seq (plus (one (not_in [lt; semi] false))) (boundary word)))).
Definition name_re : regex := group 4 (seq (star (one is_white)) (group 5 (plus (one (not_in [lt; semi] true))))).
Lemma map_nil {A B} (f : A -> B) l : l = [] -> map f l = [].
Proof. intros ->. reflexivity. Qed.
(** no middle name is found where no space is, nor before an email *)
Lemma middle_tail p t c : tail_ok t -> middle_re (RS p t c) = [].
Proof.
  intro T. unfold middle_re, group at 1. apply map_nil. unfold seq at 1. destruct T as [->|[[r ->]|[r ->]]].
  - rewrite plus_stops by exact I. reflexivity.
  - rewrite plus_stops by reflexivity. reflexivity.
  - rewrite (plus_run is_white space [] p (lt :: r) c white_space (Forall_nil _) eq_refl : plus _ (RS p (space :: lt :: r) c) = _). cbn [cuts flat_map]. rewrite app_nil_r. unfold group. apply map_nil.
    unfold seq. rewrite plus_stops by reflexivity. reflexivity.
Qed.
Lemma middle_nonwhite p x r c : is_white x = false -> middle_re (RS p (x :: r) c) = [].
Proof. intro X. unfold middle_re, group at 1. apply map_nil. unfold seq at 1. rewrite plus_stops by exact X. reflexivity. Qed.
Lemma star_stuck a n s : a s = [] -> star_ n a s = [s].
Proof. intro A. destruct n; [reflexivity|]. cbn [star_]. rewrite A. reflexivity. Qed.
(** no last name is found there either *)
Lemma name_tail p t c : tail_ok t -> name_re (RS p t c) = [].
Proof.
  intro T. unfold name_re, group at 1. apply map_nil. unfold seq. destruct T as [->|[[r ->]|[r ->]]].
  - rewrite (star_run is_white [] p [] c (Forall_nil _) I : star _ (RS p [] c) = _). cbn [cuts flat_map]. rewrite app_nil_r. unfold group. apply map_nil. apply plus_stops. exact I.
  - rewrite (star_run is_white [] p (semi :: r) c (Forall_nil _) eq_refl : star _ (RS p (semi :: r) c) = _). cbn [cuts flat_map]. rewrite app_nil_r. unfold group. apply map_nil. apply plus_stops. reflexivity.
  - rewrite (star_run is_white [space] p (lt :: r) c (Forall_cons _ white_space (Forall_nil _)) eq_refl : star _ (RS p (space :: lt :: r) c) = _). cbn [cuts flat_map app]. rewrite app_nil_r.
    unfold group. rewrite !plus_stops by reflexivity. reflexivity.
Qed.

(** the last name *)
Lemma last_class l : last_ok word l -> l <> [] /\ Forall (fun c => not_in [lt; semi] true c = true) l /\ Forall (fun c => not_in [lt; semi] false c = true) l /\ Forall (fun c => is_white c = false) l /\ Forall (fun c => word c = true) l.
Proof.
  intros [N A]. split; [exact N|]. apply all_Forall in A. repeat split; try exact A; eapply Forall_impl; try exact A; cbn beta; intros c W; destruct (WO c W) as (W1 & W2 & W3).
  - apply not_in_true; [|intros _; exact W1]. intros x [<-|[<-|[]]]; assumption.
  - apply not_in_true; [|discriminate]. intros x [<-|[<-|[]]]; assumption.
  - exact W1.
Qed.
Lemma tail_stops t : tail_ok t -> stops (not_in [lt; semi] true) t.
Proof. intros [->|[[r ->]|[r ->]]]; [exact I|reflexivity..]. Qed.
Lemma name_finds p s l t c : s = [] \/ s = [space] -> last_ok word l -> tail_ok t -> finds name_re (RS p (s ++ l ++ t) c) (RS (end_of p l) t ((4, s ++ l) :: (5, l) :: c)).
Proof.
  intros S L T. destruct (last_class l L) as (N & F & _ & W & _). unfold name_re. rewrite app_assoc.
  replace (end_of p l) with (end_of (end_of p s) l) by (destruct l; [destruct (N eq_refl)|reflexivity]).
  apply group_finds. rewrite <- app_assoc. eapply seq_finds.
  - apply star_finds; [destruct S as [->| ->]; repeat constructor|]. destruct l as [|x l]; [destruct (N eq_refl)|]. inversion W; subst. assumption.
  - apply group_finds. apply plus_finds; [exact N|exact F|exact (tail_stops t T)].
Qed.

(** the email and the semicolon *)
Definition email_re : regex := seq (plus (one is_white)) (seq (one (is lt)) (seq
        (group 6 (seq (plus (one (not_in [gt; atsign] true))) (seq (one (is atsign)) (plus (one (not_in [gt] true)))))) (one (is gt)))).
Definition semi_re : regex := group 7 (seq (star (one is_white)) (seq (one (is semi)) (star (one is_white)))).
Definition email_text (e : option (text * text)) : text := match e with Some (l, d) => [space; lt] ++ l ++ [atsign] ++ d ++ [gt] | None => [] end.
Definition more_ok (r : text) : Prop := r = [] \/ exists c q, r = [semi; space] ++ c :: q /\ is_white c = false.
Lemma tail_of e r : more_ok r -> tail_ok (email_text e ++ r).
Proof.
  intro M. destruct e as [[l d]|]; [right; right; eexists; cbn; reflexivity|]. destruct M as [->|(c & q & -> & _)]; [left; reflexivity|right; left; eexists; reflexivity].
Qed.
Lemma email_finds e p r c : (forall l d, e = Some (l, d) -> local_ok l /\ domain_ok d) -> more_ok r ->
  exists p', finds (maybe email_re) (RS p (email_text e ++ r) c) (RS p' r (match e with Some (l, d) => [(6, l ++ [atsign] ++ d)] | None => [] end ++ c)).
Proof.
  intros E M. destruct e as [[l d]|].
  - destruct (E l d eq_refl) as [[NL AL] [ND AD]]. eexists. apply maybe_finds. unfold email_re, email_text.
    replace (([space; lt] ++ l ++ [atsign] ++ d ++ [gt]) ++ r) with ([space] ++ lt :: (l ++ [atsign] ++ d) ++ gt :: r) by (cbn; rewrite <- !app_assoc; cbn; rewrite <- !app_assoc; reflexivity).
    eapply seq_finds; [apply (plus_finds is_white [space]); [discriminate|repeat constructor|reflexivity]|].
    eapply seq_finds; [apply one_finds; reflexivity|].
    eapply seq_finds; [apply group_finds|apply one_finds; reflexivity].
    rewrite <- !app_assoc. change ([atsign] ++ d ++ gt :: r) with (atsign :: d ++ gt :: r). eapply seq_finds; [apply plus_finds; [exact NL| |reflexivity]|eapply seq_finds; [apply one_finds; reflexivity|apply plus_finds; [exact ND| |reflexivity]]].
    + apply all_Forall. intros x I. destruct (AL x I) as (A1 & A2 & A3). apply not_in_true; [|intros _; exact A1]. intros y [<-|[<-|[]]]; assumption.
    + apply all_Forall. intros x I. destruct (AD x I) as (A1 & A2). apply not_in_true; [|intros _; exact A1]. intros y [<-|[]]; assumption.
  - exists p. apply maybe_skips. unfold email_re, seq. destruct M as [->|(x & q & -> & _)]; cbn [email_text app]; rewrite plus_stops by (try exact I; reflexivity); reflexivity.
Qed.
Lemma semi_finds p r c : more_ok r -> exists p' c', finds (maybe semi_re) (RS p r c) (RS p' (match r with [] => [] | _ => skipn 2 r end) (c' ++ c)) /\ forall n, n <> 7 -> cap n (c' ++ c) = cap n c.
Proof.
  intros [->|(x & q & -> & X)].
  - exists p, []. split; [|reflexivity]. apply maybe_skips. unfold semi_re, group. apply map_nil. reflexivity.
  - eexists _, [(7, [semi; space])]. split.
    + apply maybe_finds. unfold semi_re. cbn [skipn app]. apply (group_finds 7 _ p [semi; space] (x :: q) c). eapply seq_finds.
      * apply (star_finds is_white []); [constructor|reflexivity].
      * eapply seq_finds; [apply one_finds; reflexivity|]. apply (star_finds is_white [space]); [repeat constructor|exact X].
    + intros n N. cbn [app cap]. destruct n as [|[|[|[|[|[|[|[|]]]]]]]]; try reflexivity. destruct (N eq_refl).
Qed.
Definition end_re : regex := seq name_re (seq (maybe email_re) (maybe semi_re)).
Lemma end_finds s l e r p c : s = [] \/ s = [space] -> last_ok word l -> (forall x d, e = Some (x, d) -> local_ok x /\ domain_ok d) -> more_ok r ->
  exists p' c', finds end_re (RS p (s ++ l ++ email_text e ++ r) c) (RS p' (match r with [] => [] | _ => skipn 2 r end) c') /\
    cap 1 c' = cap 1 c /\ cap 3 c' = cap 3 c /\ cap 5 c' = Some l /\ cap 6 c' = match e with Some (x, d) => Some (x ++ [atsign] ++ d) | None => cap 6 c end.
Proof.
  intros S L E M.
  destruct (email_finds e (end_of p l) r ((4, s ++ l) :: (5, l) :: c) E M) as [p1 F1].
  destruct (semi_finds p1 r (match e with Some (l, d) => [(6, l ++ [atsign] ++ d)] | None => [] end ++ (4, s ++ l) :: (5, l) :: c) M) as (p2 & c2 & F2 & K).
  exists p2. eexists. split.
  - eapply seq_finds; [apply name_finds; [exact S|exact L|exact (tail_of e r M)]|]. eapply seq_finds; [exact F1|exact F2].
  - rewrite !K by discriminate. destruct e as [[x d]|]; repeat split.
Qed.

(** *** The middle names *)
(** in a last name and the space after it the only boundary is the end of the name *)
Lemma last_cuts x l t c : word x = true -> Forall (fun c => word c = true) l -> tail_ok t ->
  exists w t', t = w ++ t' /\ Forall (fun c => not_in [lt; semi] false c = true) w /\ stops (not_in [lt; semi] false) t' /\
    flat_map (boundary word) (cuts (Some x) (l ++ w) t' c) = [RS (end_of (Some x) l) t c].
Proof.
  intros X L T. pose proof (tail_word t T) as TW. destruct T as [->|[[r ->]|[r ->]]].
  - exists [], []. rewrite (app_nil_r l). repeat split; [constructor|]. apply last_boundary; assumption.
  - exists [], (semi :: r). rewrite (app_nil_r l). repeat split; [constructor|]. apply last_boundary; assumption.
  - exists [space], (lt :: r). repeat split; [repeat constructor|]. rewrite cuts_app, flat_map_app. cbn [cuts flat_map]. unfold boundary at 1. cbn [prev rest hd_error]. rewrite word_space, word_lt. cbn [Bool.eqb app].
    apply last_boundary; assumption.
Qed.
Lemma end_tail p t c : tail_ok t -> end_re (RS p t c) = [].
Proof. intro T. unfold end_re, seq at 1. rewrite (name_tail p t c T). reflexivity. Qed.
Lemma flat_map_nil {A B} (f : A -> list B) x l : f x = [] -> flat_map f (x :: l) = flat_map f l.
Proof. intro E. cbn [flat_map]. rewrite E. reflexivity. Qed.
Lemma firstn_here {A} (x r : list A) : firstn (length (x ++ r) - length r) (x ++ r) = x.
Proof. rewrite app_length. replace (length x + length r - length r) with (length x + 0) by lia. rewrite firstn_app_2. cbn. apply app_nil_r. Qed.

Lemma middle_none l t p c : last_ok word l -> tail_ok t -> exists p1 c1, middle_re (RS p (space :: l ++ t) c) = [RS p1 t c1].
Proof.
  intros L T. destruct (last_class l L) as (N & _ & F & W & D). destruct l as [|x l]; [destruct (N eq_refl)|]. inversion D; subst. inversion F; subst. inversion W; subst.
  destruct (last_cuts x l t c) as (w & t' & E & Fw & St & B); [assumption..|].
  eexists _, _. unfold middle_re, group at 1, seq at 1. cbn [app]. rewrite plus_space by assumption. cbn [flat_map]. rewrite app_nil_r.
  unfold group, seq. rewrite E, app_assoc, plus_run; [|assumption|apply Forall_app; split; assumption|exact St]. rewrite B. cbn [map prev rest caps]. rewrite <- E. reflexivity.
Qed.
Lemma middle_some m l t p c : middle_ok m -> last_ok word l -> tail_ok t ->
  exists p1 c1 k more, middle_re (RS p (space :: m ++ space :: l ++ t) c) = RS p1 t c1 :: RS (Some space) (l ++ t) ((2, k) :: (3, m ++ [space]) :: c) :: more.
Proof.
  intros ((m0 & m1 & -> & M0) & _ & AM) L T. destruct (last_class l L) as (N & _ & F & W & D). destruct l as [|x l]; [destruct (N eq_refl)|]. inversion D as [|? ? Dx Dl]; subst. inversion F as [|? ? Fx Fl]; subst.
  assert (CM : Forall (fun c => not_in [lt; semi] false c = true) (m0 :: m1)).
  { apply all_Forall. intros y I. destruct (AM y I) as [A1 A2]. apply not_in_true; [|discriminate]. intros z [<-|[<-|[]]]; assumption. }
  inversion CM as [|? ? C0 C1]; subst.
  destruct (last_cuts x l t c) as (w & t' & E & Fw & St & B); [assumption..|].
  unfold middle_re, group at 1, seq at 1. cbn [app]. rewrite plus_space by assumption. cbn [flat_map]. rewrite app_nil_r.
  unfold group, seq. rewrite E. replace (m1 ++ space :: x :: l ++ w ++ t') with ((m1 ++ space :: x :: l ++ w) ++ t') by (rewrite <- app_assoc; cbn; rewrite <- app_assoc; reflexivity).
  rewrite plus_run; [|exact C0| |exact St].
  2:{ apply Forall_app. split; [exact C1|]. constructor; [reflexivity|]. constructor; [exact Fx|]. apply Forall_app. split; assumption. }
  rewrite cuts_app. cbn [cuts]. rewrite !flat_map_app, B. cbn [flat_map]. unfold boundary at 1. cbn [prev rest hd_error]. rewrite word_space, Dx. cbn [Bool.eqb app map prev rest caps].
  eexists _, _, _, _. f_equal; [rewrite <- E; reflexivity|]. f_equal. f_equal; [rewrite <- app_assoc; reflexivity|]. f_equal. f_equal. f_equal.
  replace (m0 :: (m1 ++ space :: x :: l ++ w) ++ t') with ((m0 :: m1 ++ [space]) ++ x :: (l ++ w) ++ t') by (cbn; rewrite <- !app_assoc; cbn; rewrite <- !app_assoc; reflexivity).
  rewrite firstn_here. reflexivity.
Qed.
Lemma names_finds m l e r p c : (forall x, m = Some x -> middle_ok x) -> last_ok word l -> (forall x d, e = Some (x, d) -> local_ok x /\ domain_ok d) -> more_ok r ->
  exists p' c', finds (seq (star middle_re) end_re) (RS p (space :: match m with Some m => m ++ [space] | None => [] end ++ l ++ email_text e ++ r) c) (RS p' (match r with [] => [] | _ => skipn 2 r end) c') /\
    cap 1 c' = cap 1 c /\ cap 3 c' = match m with Some m => Some (m ++ [space]) | None => cap 3 c end /\ cap 5 c' = Some l /\ cap 6 c' = match e with Some (x, d) => Some (x ++ [atsign] ++ d) | None => cap 6 c end.
Proof.
  intros HM L E M. pose proof (tail_of e r M) as T. destruct m as [m|].
  - destruct (middle_some m l (email_text e ++ r) p c (HM m eq_refl) L T) as (p1 & c1 & k & more & G).
    destruct (end_finds [] l e r (Some space) ((2, k) :: (3, m ++ [space]) :: c) (or_introl eq_refl) L E M) as (p' & c' & [z Z] & K1 & K3 & K5 & K6).
    exists p', c'. split; [|split; [exact K1|split; [exact K3|split; [exact K5|exact K6]]]].
    unfold finds, seq at 1, star. rewrite <- app_assoc. cbn [app rest length star_]. rewrite G. cbn [flat_map]. rewrite (star_stuck middle_re _ (RS p1 _ c1) (middle_tail p1 _ c1 T)).
    destruct (last_class l L) as (N & _ & _ & W & _). destruct l as [|x l]; [destruct (N eq_refl)|]. inversion W as [|? ? Wx _]; subst.
    cbn [app]. rewrite (star_stuck middle_re _ (RS (Some space) _ _) (middle_nonwhite _ _ _ _ Wx)). cbn [app]. rewrite flat_map_nil by exact (end_tail p1 _ c1 T). cbn [flat_map].
    cbn [app] in Z. rewrite Z. eexists. reflexivity.
  - destruct (middle_none l (email_text e ++ r) p c L T) as (p1 & c1 & G).
    destruct (end_finds [space] l e r p c (or_intror eq_refl) L E M) as (p' & c' & [z Z] & K).
    exists p', c'. split; [|exact K]. unfold finds, seq at 1, star. cbn [app rest length star_]. rewrite G. cbn [flat_map]. rewrite (star_stuck middle_re _ (RS p1 _ c1) (middle_tail p1 _ c1 T)).
    cbn [app]. rewrite flat_map_nil by exact (end_tail p1 _ c1 T). cbn [flat_map]. cbn [app] in Z. rewrite Z. eexists. reflexivity.
Qed.

(** *** A whole author *)
Lemma first_finds f p r c : first_ok f -> exists p', finds (group 1 (seq (plus (one (not_in [lt; dot] true))) (maybe (one (is dot))))) (RS p (f ++ space :: r) c) (RS p' (space :: r) ((1, f) :: c)).
Proof.
  intros (g & N & A & D).
  assert (F : Forall (fun c => not_in [lt; dot] true c = true) g).
  { apply all_Forall. intros x I. destruct (A x I) as (A1 & A2 & A3). apply not_in_true; [|intros _; exact A1]. intros y [<-|[<-|[]]]; assumption. }
  destruct D as [-> | ->]; eexists; apply group_finds.
  - eapply seq_finds; [apply plus_finds; [exact N|exact F|reflexivity]|]. apply maybe_skips. reflexivity.
  - rewrite <- app_assoc. eapply seq_finds; [apply plus_finds; [exact N|exact F|reflexivity]|]. apply maybe_finds. apply one_finds. reflexivity.
Qed.
Lemma trimmed_end_nonwhite t c : is_white c = false -> trimmed_end (t ++ [c]) = t ++ [c].
Proof. intro W. unfold trimmed_end. rewrite rev_app_distr. cbn [rev app drop_white]. rewrite W. cbn [rev]. rewrite rev_involutive. reflexivity. Qed.
Lemma trimmed_end_space t : trimmed_end (t ++ [space]) = trimmed_end t.
Proof. unfold trimmed_end. rewrite rev_app_distr. cbn [rev app drop_white]. rewrite white_space. reflexivity. Qed.
Lemma author_finds q r p : person_ok word q -> more_ok r -> exists p' c', finds (author_re word) (RS p (written q ++ r) []) (RS p' (match r with [] => [] | _ => skipn 2 r end) c') /\ author_from c' = author_of q.
Proof.
  intros (F & HM & L & E) M. destruct (first_finds (p_first q) p (match p_middle q with Some m => m ++ [space] | None => [] end ++ p_last q ++ email_text (p_email q) ++ r) [] F) as [p1 F1].
  destruct (names_finds (p_middle q) (p_last q) (p_email q) r p1 [(1, p_first q)] HM L E M) as (p2 & c2 & F2 & K1 & K3 & K5 & K6).
  exists p2, c2. split.
  - unfold author_re. fold middle_re. fold name_re. fold email_re. fold semi_re. fold end_re.
    replace (written q ++ r) with (p_first q ++ space :: match p_middle q with Some m => m ++ [space] | None => [] end ++ p_last q ++ email_text (p_email q) ++ r)
      by (unfold written, name_of, email_text; rewrite <- !app_assoc; reflexivity).
    eapply seq_finds; [exact F1|exact F2].
  - unfold author_from, author_of. rewrite K1, K3, K5, K6. cbn [cap Nat.eqb]. unfold de_underscore, spaced. f_equal.
    destruct (p_middle q) as [m|]; [|reflexivity]. cbn [option_map]. f_equal. f_equal. destruct (HM m eq_refl) as (_ & (x & f & -> & X) & _). rewrite trimmed_end_space. apply trimmed_end_nonwhite. exact X.
Qed.

(** *** The line *)
Lemma written_start q : person_ok word q -> exists x f, written q = x :: f /\ is_white x = false.
Proof.
  intros ((g & N & A & D) & _). destruct g as [|x g]; [destruct (N eq_refl)|]. destruct (A x (or_introl eq_refl)) as [X _]. unfold written, name_of. destruct D as [-> | ->]; cbn [app]; eexists _, _; (split; [reflexivity|exact X]).
Qed.
Lemma written_end q : person_ok word q -> exists x f, written q = f ++ [x] /\ is_white x = false.
Proof.
  intros (_ & _ & L & E). unfold written. destruct (p_email q) as [[a d]|].
  - exists gt, (name_of q ++ [space; lt] ++ a ++ [atsign] ++ d). split; [|reflexivity]. rewrite <- !app_assoc. reflexivity.
  - destruct (last_class _ L) as (N & _ & _ & W & _). destruct (p_last q) as [|y l _] eqn:Q using rev_ind; [destruct (N eq_refl)|]. apply Forall_app in W. destruct W as [_ W]. inversion W; subst.
    exists y. eexists. split; [|assumption]. rewrite app_nil_r. unfold name_of. rewrite Q, !app_assoc. reflexivity.
Qed.
Lemma line_cons q qs : line (q :: qs) = written q ++ match qs with [] => [] | _ => [semi; space] ++ line qs end.
Proof. destruct qs; [cbn; rewrite app_nil_r; reflexivity|reflexivity]. Qed.
Lemma line_end qs : Forall (person_ok word) qs -> qs <> [] -> exists x f, line qs = f ++ [x] /\ is_white x = false.
Proof.
  induction 1 as [|q qs Q F IH]; intro N; [destruct (N eq_refl)|]. rewrite line_cons. destruct qs as [|q' qs].
  - rewrite app_nil_r. exact (written_end q Q).
  - destruct IH as (x & f & E & X); [discriminate|]. rewrite E. exists x. eexists. split; [|exact X]. rewrite !app_assoc. reflexivity.
Qed.
Lemma line_more qs : Forall (person_ok word) qs -> more_ok (match qs with [] => [] | _ => [semi; space] ++ line qs end).
Proof.
  intro F. destruct qs as [|q qs]; [left; reflexivity|]. right. inversion F; subst. destruct (written_start q H1) as (x & f & E & X). rewrite line_cons, E. cbn [app]. eexists _, _. split; [reflexivity|exact X].
Qed.
Lemma search_here re p s e : finds re (RS p s []) e -> search re 0 p s = Some (0, e).
Proof. intros [l L]. destruct s; cbn [search]; rewrite L; reflexivity. Qed.
Lemma captures_step fuel re p s k e : search re 0 p s = Some (k, e) -> captures_iter (S fuel) re p s = (k, e) :: captures_iter fuel re (prev e) (rest e).
Proof. intro S. cbn [captures_iter]. rewrite S. reflexivity. Qed.
Lemma author_nothing p : author_re word (RS p [] []) = [].
Proof. unfold author_re, seq at 1, group at 1. cbn. reflexivity. Qed.
Lemma iter_line qs : Forall (person_ok word) qs -> forall fuel p, length qs < fuel ->
  exists ms, captures_iter fuel (author_re word) p (line qs) = ms /\ map (fun m => author_from (caps (snd m))) ms = map author_of qs /\ Forall (fun m => fst m = 0) ms /\
    (qs <> [] -> exists f k e, ms = f ++ [(k, e)] /\ rest e = []).
Proof.
  induction 1 as [|q qs Q F IH]; intros fuel p L; (destruct fuel as [|fuel]; [cbn in L; lia|]).
  - exists []. cbn [line captures_iter search]. rewrite author_nothing. repeat split; [constructor|]. intro N. destruct (N eq_refl).
  - rewrite line_cons. destruct (author_finds q _ p Q (line_more qs F)) as (p' & c' & Fi & A). eexists. split; [exact (captures_step fuel _ _ _ _ _ (search_here _ _ _ _ Fi))|]. cbn [prev rest].
    destruct (IH fuel p') as (ms & E0 & M & Z & E); [cbn in L; lia|].
    assert (R : captures_iter fuel (author_re word) p' match match qs with [] => [] | _ => [semi; space] ++ line qs end with [] => [] | _ => skipn 2 match qs with [] => [] | _ => [semi; space] ++ line qs end end = ms) by (destruct qs; exact E0).
    cbn [map fst snd caps]. change text with (list N) in *. rewrite R, A, M. split; [reflexivity|]. split; [constructor; [reflexivity|exact Z]|].
    intros _. destruct qs as [|q' qs].
    + destruct ms; [|discriminate M]. exists [], 0. eexists. split; [reflexivity|]. reflexivity.
    + destruct E as (f & k & e & -> & Re); [discriminate|]. eexists (_ :: f), k, e. split; [reflexivity|exact Re].
Qed.
Lemma line_length qs : Forall (person_ok word) qs -> length qs <= length (line qs).
Proof.
  induction 1 as [|q qs Q _ IH]; [cbn; lia|]. rewrite line_cons, app_length. destruct (written_start q Q) as (x & f & -> & _). cbn [length]. destruct qs; [cbn; lia|]. rewrite app_length. cbn [length] in *. lia.
Qed.
Lemma parse_line qs : Forall (person_ok word) qs -> qs <> [] -> forall w, Forall (fun c => is_white c = true) w -> parse_author_line word (line qs ++ w) = (map author_of qs, true).
Proof.
  intros F N w W. unfold parse_author_line. destruct (line_end qs F N) as (x & f & E & X).
  assert (T : trimmed_end (line qs ++ w) = line qs).
  { clear -E X W. rewrite E. induction w as [|c w IH] using rev_ind; [rewrite app_nil_r; apply trimmed_end_nonwhite; exact X|].
    apply Forall_app in W. destruct W as [W C]. inversion C; subst. unfold trimmed_end in *. rewrite app_assoc, rev_app_distr. cbn [rev app drop_white]. rewrite H1. exact (IH W). }
  rewrite T. destruct (iter_line qs F (S (length (line qs))) None) as (ms & -> & M & Z & K); [pose proof (line_length qs F); lia|].
  rewrite M. destruct (K N) as (g & k & e & -> & Re). f_equal. rewrite map_app. cbn [map]. rewrite last_last, Re, andb_true_r.
  destruct g as [|[s0 e0] g]; cbn [app]; inversion Z; subst; cbn [fst] in *; subst; reflexivity.
Qed.
End AUTHOR.

(** ** The attribute *)
Lemma split_blank t : blank t -> split_white t = [].
Proof. induction t as [|c t IH]; intro B; [reflexivity|]. cbn [split_white]. rewrite (B c (or_introl eq_refl)). apply IH. intros d I. apply B. right. exact I. Qed.
Lemma split_skip b t : blank b -> split_white (b ++ t) = split_white t.
Proof. induction b as [|c b IH]; intro B; [reflexivity|]. cbn [app split_white]. rewrite (B c (or_introl eq_refl)). apply IH. intros d I. apply B. right. exact I. Qed.
Lemma split_word w t : word_text w -> (t = [] \/ exists c r, t = c :: r /\ is_white c = true) -> split_white (w ++ t) = w :: split_white t.
Proof.
  intros [N A] T. induction w as [|c w IH]; [destruct (N eq_refl)|]. cbn [app split_white]. rewrite (A c (or_introl eq_refl)).
  destruct w as [|d w].
  - cbn [app]. destruct T as [->|(x & r & -> & X)]; [reflexivity|]. rewrite X. reflexivity.
  - cbn [app]. rewrite (A d (or_intror (or_introl eq_refl))). change (d :: w ++ t) with ((d :: w) ++ t). rewrite IH; [reflexivity|discriminate|]. intros x I. apply A. right. exact I.
Qed.
Lemma split_words t ws : words t ws -> split_white t = ws.
Proof.
  induction 1 as [t B|b w e B W E|b w s t ws B W N S H IH M].
  - exact (split_blank t B).
  - rewrite (split_skip b _ B), split_word; [rewrite (split_blank e E); reflexivity|exact W|]. destruct e as [|c e]; [left; reflexivity|right]. exists c, e. split; [reflexivity|apply E; left; reflexivity].
  - rewrite (split_skip b _ B), split_word; [rewrite (split_skip s _ S), IH; reflexivity|exact W|]. destruct s as [|c s]; [destruct (N eq_refl)|right]. exists c, (s ++ t). split; [reflexivity|apply S; left; reflexivity].
Qed.
Lemma spaced_app t u : spaced (t ++ u) = spaced t ++ spaced u.
Proof. apply map_app. Qed.
Lemma spaced_space : spaced [space] = [space].
Proof. reflexivity. Qed.
Lemma join_one ws : join_space ws = one_space ws.
Proof. reflexivity. Qed.
Lemma one_space_snoc ws w : ws <> [] -> one_space (ws ++ [w]) = one_space ws ++ space :: w.
Proof. intro N. destruct ws as [|v ws]; [destruct (N eq_refl)|]. cbn [app one_space]. rewrite flat_map_app. cbn [flat_map]. rewrite app_nil_r, app_assoc. reflexivity. Qed.
