(** Proofs about C54, first part: a scanner for HTML that accepts exactly well nested text, and the same for pieces. *)
From Coq Require Import DecimalString.
From Verif Require Import Base AttrsModel EvalModel EscapeModel EvalSpec HtmlModel HtmlSpec EscapeProofs.
Open Scope string_scope.
Open Scope nat_scope.
Open Scope list_scope.

(** ** The scanner *)
(** in text; after [<]; in the name of a start tag; after it; in a quoted value; in the name of an end tag; in a declaration *)
Inductive mode := Out | Lt | Name (n : bytes) | Tag (n : bytes) | Val (n : bytes) | CName (n : bytes) | Bang.
Definition sstate := (mode * list bytes)%type.
Definition is_void (n : bytes) : bool := existsb (bytes_eqb n) void_elements.
Definition opens (n : bytes) (st : list bytes) : list bytes := if is_void n then st else n :: st.
Definition step (q : sstate) (c : ascii) : option sstate :=
  let '(m, st) := q in
  match m with
  | Out => Some (if Ascii.eqb c "<" then Lt else Out, st)
  | Lt => if Ascii.eqb c "/" then Some (CName [], st) else if Ascii.eqb c "!" then Some (Bang, st) else if name_char c then Some (Name [c], st) else None
  | Name n => if Ascii.eqb c ">" then Some (Out, opens n st) else if Ascii.eqb c " " then Some (Tag n, st) else if name_char c then Some (Name (n ++ [c]), st) else None
  | Tag n => if Ascii.eqb c ">" then Some (Out, opens n st) else if Ascii.eqb c """" then Some (Val n, st) else if Ascii.eqb c "<" then None else Some (Tag n, st)
  | Val n => Some (if Ascii.eqb c """" then Tag n else Val n, st)
  | CName n => if Ascii.eqb c ">" then match st with t :: st => if bytes_eqb t n then Some (Out, st) else None | [] => None end
               else if name_char c then Some (CName (n ++ [c]), st) else None
  | Bang => Some (if Ascii.eqb c ">" then Out else Bang, st)
  end.
Fixpoint scan (q : sstate) (x : bytes) : option sstate := match x with [] => Some q | c :: x => match step q c with Some q => scan q x | None => None end end.
Definition pstep (q : sstate) (p : piece) : option sstate :=
  match p with
  | Lit s => scan q (b s)
  | Num n => match fst q with Out | Val _ => Some q | Name m => Some (Name (m ++ b (dec n)), snd q) | CName m => Some (CName (m ++ b (dec n)), snd q) | _ => None end
  | Raw _ | Esc _ => match fst q with Out => Some q | _ => None end
  | RawVal _ | EscVal _ | EscHref _ => match fst q with Val _ => Some q | _ => None end
  end.
Fixpoint pscan (q : sstate) (ps : pieces) : option sstate := match ps with [] => Some q | p :: ps => match pstep q p with Some q => pscan q ps | None => None end end.

Lemma scan_app q x y : scan q (x ++ y) = match scan q x with Some q => scan q y | None => None end.
Proof. revert q. induction x as [|c x IH]; intros q; cbn; [reflexivity|]. destruct (step q c); [apply IH|reflexivity]. Qed.
Lemma pscan_app q x y : pscan q (x ++ y) = match pscan q x with Some q => pscan q y | None => None end.
Proof. revert q. induction x as [|c x IH]; intros q; cbn; [reflexivity|]. destruct (pstep q c); [apply IH|reflexivity]. Qed.
Lemma pscan_seq q q1 q2 x y : pscan q x = Some q1 -> pscan q1 y = Some q2 -> pscan q (x ++ y) = Some q2.
Proof. intros E F. now rewrite pscan_app, E. Qed.

(** ** What is accepted is well nested *)
Ltac chr := repeat match goal with
  | H : Ascii.eqb _ _ = true |- _ => apply Ascii.eqb_eq in H; subst
  | H : Ascii.eqb _ _ = false |- _ => apply Ascii.eqb_neq in H
  end.
Lemma void_in n : is_void n = true <-> In n void_elements.
Proof.
  unfold is_void. rewrite existsb_exists. split.
  - intros (m & I & E). apply bytes_eqb_eq in E. now subst.
  - intros I. exists n. split; [exact I|apply bytes_eqb_refl].
Qed.
Definition ended (x : bytes) (st : list bytes) (rest : bytes) (st' : list bytes) : Prop := scan (Out, st') rest = Some (Out, []) /\ length rest < length x.
Lemma from_val n st x : scan (Val n, st) x = Some (Out, []) -> exists v r, x = v ++ $"""" ++ r /\ ~ In """"%char v /\ scan (Tag n, st) r = Some (Out, []) /\ length r < length x.
Proof.
  induction x as [|c x IH]; cbn [scan step]; intros E; [discriminate E|].
  destruct (Ascii.eqb c """") eqn:C; chr.
  - exists [], x. cbn. auto.
  - destruct (IH E) as (v & r & -> & N & S & L). exists (c :: v), r. split; [reflexivity|]. split; [intros [I|I]; [now subst|auto]|]. split; [exact S|]. cbn [length] in *. lia.
Qed.
Lemma from_tag k : forall n st x, length x <= k -> scan (Tag n, st) x = Some (Out, []) -> exists a r, x = a ++ $">" ++ r /\ attribute_text a /\ ended x st r (opens n st).
Proof.
  induction k as [|k IH]; intros n st x K E; (destruct x as [|c x]; [discriminate E|]); cbn in K; [lia|].
  cbn [scan step] in E. destruct (Ascii.eqb c ">") eqn:C1; chr.
  - exists [], x. split; [reflexivity|]. split; [constructor|]. split; [exact E|]. cbn. lia.
  - destruct (Ascii.eqb c """") eqn:C2; chr.
    + destruct (from_val _ _ _ E) as (v & r & -> & N & S & L). destruct (IH n st r ltac:(lia) S) as (a & r' & -> & A & En & L').
      exists ($"""" ++ v ++ $"""" ++ a), r'. split; [cbn; now rewrite <- app_assoc|]. split; [now constructor|]. split; [exact En|]. cbn [length] in *. lia.
    + destruct (Ascii.eqb c "<") eqn:C3; chr; [discriminate E|]. destruct (IH n st x ltac:(lia) E) as (a & r & -> & A & En & L).
      exists (c :: a), r. split; [reflexivity|]. split; [now constructor|]. split; [exact En|]. cbn [length] in *. lia.
Qed.
Lemma from_name x : forall n st, scan (Name n, st) x = Some (Out, []) -> exists m a r, x = m ++ a ++ $">" ++ r /\ forallb name_char m = true /\ attributes a /\ ended x st r (opens (n ++ m) st).
Proof.
  induction x as [|c x IH]; cbn [scan step]; intros n st E; [discriminate E|]. destruct (Ascii.eqb c ">") eqn:C1; chr.
  - exists [], [], x. rewrite app_nil_r. split; [reflexivity|]. split; [reflexivity|]. split; [now left|]. split; [exact E|]. cbn. lia.
  - destruct (Ascii.eqb c " ") eqn:C2; chr.
    + destruct (from_tag _ _ _ _ (le_n _) E) as (a & r & -> & A & En & L). exists [], (" "%char :: a), r. rewrite app_nil_r.
      split; [reflexivity|]. split; [reflexivity|]. split; [right; now exists a|]. split; [exact En|]. cbn [length] in *. lia.
    + destruct (name_char c) eqn:N; [|discriminate E]. destruct (IH _ _ E) as (m & a & r & -> & F & A & En & L). exists (c :: m), a, r.
      split; [reflexivity|]. split; [cbn; now rewrite N|]. split; [exact A|]. rewrite <- app_assoc in En. split; [exact En|]. cbn [length] in *. lia.
Qed.
Lemma from_cname x : forall n st, scan (CName n, st) x = Some (Out, []) -> exists m r st', x = m ++ $">" ++ r /\ st = (n ++ m) :: st' /\ ended x st r st'.
Proof.
  induction x as [|c x IH]; cbn [scan step]; intros n st E; [discriminate E|]. destruct (Ascii.eqb c ">") eqn:C1; chr.
  - destruct st as [|t st]; [discriminate E|]. destruct (bytes_eqb t n) eqn:B; [|discriminate E]. apply bytes_eqb_eq in B. subst t.
    exists [], x, st. rewrite app_nil_r. split; [reflexivity|]. split; [reflexivity|]. split; [exact E|]. cbn. lia.
  - destruct (name_char c) eqn:N; [|discriminate E]. destruct (IH _ _ E) as (m & r & st' & -> & -> & En & L). exists (c :: m), r, st'.
    split; [reflexivity|]. split; [now rewrite <- app_assoc|]. split; [exact En|]. cbn [length] in *. lia.
Qed.
Lemma from_bang x : forall st, scan (Bang, st) x = Some (Out, []) -> exists d r, x = d ++ $">" ++ r /\ ~ In ">"%char d /\ ended x st r st.
Proof.
  induction x as [|c x IH]; cbn [scan step]; intros st E; [discriminate E|]. destruct (Ascii.eqb c ">") eqn:C1; chr.
  - exists [], x. split; [reflexivity|]. split; [auto|]. split; [exact E|]. cbn. lia.
  - destruct (IH _ E) as (d & r & -> & N & En & L). exists (c :: d), r. split; [reflexivity|]. split; [intros [I|I]; [now subst|auto]|]. split; [exact En|]. cbn [length] in *. lia.
Qed.
(** text that closes the elements of the stack, innermost first *)
Inductive closes : list bytes -> bytes -> Prop :=
| cl_nil x : nested x -> closes [] x
| cl_cons n st inner x : nested inner -> closes st x -> closes (n :: st) (inner ++ $"</" ++ n ++ $">" ++ x).
Lemma closes_after st p x : (forall y, nested y -> nested (p ++ y)) -> closes st x -> closes st (p ++ x).
Proof.
  intros P H. destruct H as [x H|n st inner x H C].
  - constructor. auto.
  - rewrite app_assoc. constructor; auto.
Qed.
Theorem scan_closes k : forall x st, length x <= k -> (forall n, In n st -> n <> []) -> scan (Out, st) x = Some (Out, []) -> closes st x.
Proof.
  induction k as [|k IH]; intros x st K N E.
  { destruct x; [|cbn in K; lia]. injection E as ->. constructor. constructor. }
  destruct x as [|c x]; [injection E as ->; constructor; constructor|]. cbn in K. cbn [scan step] in E.
  destruct (Ascii.eqb c "<") eqn:C; chr.
  2: { apply (closes_after _ [c]); [intros y Y; now constructor|]. apply IH; [lia|exact N|exact E]. }
  destruct x as [|c x]; [discriminate E|]. cbn in K. cbn [scan step] in E. destruct (Ascii.eqb c "/") eqn:C1; chr.
  { destruct (from_cname _ _ _ E) as (m & r & st' & -> & -> & S & L). cbn [app].
    apply (cl_cons m st' []); [constructor|]. apply IH; [lia|intros n I; apply N; now right|exact S]. }
  destruct (Ascii.eqb c "!") eqn:C2; chr.
  { destruct (from_bang _ _ E) as (d & r & -> & F & S & L). change (closes st (($"<!" ++ d ++ $">" ++ r))). rewrite !app_assoc. apply closes_after; [|apply IH; [lia|exact N|exact S]].
    intros y Y. rewrite <- !app_assoc. now constructor. }
  destruct (name_char c) eqn:C3; [|discriminate E].
  destruct (from_name _ _ _ E) as (m & a & r & -> & F & A & S & L). cbn [app] in S. unfold opens in S.
  assert (En : element_name (c :: m)) by (split; [discriminate|cbn; now rewrite C3]).
  change (closes st ($"<" ++ (c :: m) ++ a ++ $">" ++ r)). destruct (is_void (c :: m)) eqn:V.
  - apply void_in in V. rewrite !app_assoc. apply closes_after; [|apply IH; [lia|exact N|exact S]].
    intros y Y. rewrite <- !app_assoc. now constructor.
  - assert (V' : ~ In (c :: m) void_elements) by (rewrite <- void_in; congruence).
    assert (Cl : closes ((c :: m) :: st) r). { apply IH; [lia| |exact S]. intros n [<-|I]; [discriminate|auto]. }
    inversion Cl as [|n' st'' inner z Hin Hz]; subst. rewrite !app_assoc. apply closes_after; [|exact Hz].
    intros y Y. rewrite <- !app_assoc. now constructor.
Qed.
Corollary scan_nested x : scan (Out, []) x = Some (Out, []) -> nested x.
Proof. intros E. pose proof (scan_closes _ x [] (le_n _) ltac:(intros n []) E) as C. now inversion C. Qed.

(** ** Well nested text is accepted, at any depth *)
Lemma scan_names m : forall n st r, forallb name_char m = true -> scan (Name n, st) (m ++ r) = scan (Name (n ++ m), st) r.
Proof.
  induction m as [|c m IH]; intros n st r F; [now rewrite app_nil_r|]. cbn in F. apply andb_prop in F as [F1 F2]. cbn [app scan step].
  destruct (Ascii.eqb c ">") eqn:C1; chr; [discriminate F1|]. destruct (Ascii.eqb c " ") eqn:C2; chr; [discriminate F1|]. rewrite F1, IH by exact F2. now rewrite <- app_assoc.
Qed.
Lemma scan_cnames m : forall n st r, forallb name_char m = true -> scan (CName n, st) (m ++ r) = scan (CName (n ++ m), st) r.
Proof.
  induction m as [|c m IH]; intros n st r F; [now rewrite app_nil_r|]. cbn in F. apply andb_prop in F as [F1 F2]. cbn [app scan step].
  destruct (Ascii.eqb c ">") eqn:C1; chr; [discriminate F1|]. rewrite F1, IH by exact F2. now rewrite <- app_assoc.
Qed.
Lemma scan_value v : forall n st r, ~ In """"%char v -> scan (Val n, st) (v ++ r) = scan (Val n, st) r.
Proof.
  induction v as [|c v IH]; intros n st r N; [reflexivity|]. cbn [app scan step]. destruct (Ascii.eqb c """") eqn:C; chr; [exfalso; apply N; now left|].
  apply IH. intros I. apply N. now right.
Qed.
Lemma scan_attrs a : attribute_text a -> forall n st r, scan (Tag n, st) (a ++ r) = scan (Tag n, st) r.
Proof.
  induction 1 as [|c x N1 N2 N3 H IH|v x N H IH]; intros n st r; [reflexivity| |].
  - cbn [app scan step]. destruct (Ascii.eqb c ">") eqn:C1; chr; [congruence|]. destruct (Ascii.eqb c """") eqn:C2; chr; [congruence|].
    destruct (Ascii.eqb c "<") eqn:C3; chr; [congruence|]. apply IH.
  - change (scan (Val n, st) ((v ++ $"""" ++ x) ++ r) = scan (Tag n, st) r). rewrite <- app_assoc, scan_value by exact N. exact (IH n st r).
Qed.
Lemma scan_bang d : forall st r, ~ In ">"%char d -> scan (Bang, st) (d ++ r) = scan (Bang, st) r.
Proof.
  induction d as [|c v IH]; intros st r N; [reflexivity|]. cbn [app scan step]. destruct (Ascii.eqb c ">") eqn:C; chr; [exfalso; apply N; now left|].
  apply IH. intros I. apply N. now right.
Qed.
Lemma scan_start n a st r : element_name n -> attributes a -> scan (Out, st) ($"<" ++ n ++ a ++ $">" ++ r) = scan (Out, opens n st) r.
Proof.
  intros [N F] A. destruct n as [|c m]; [congruence|]. cbn in F. apply andb_prop in F as [F1 F2].
  change (scan (Lt, st) ((c :: m) ++ a ++ $">" ++ r) = scan (Out, opens (c :: m) st) r). cbn [app scan step]. destruct (Ascii.eqb c "/") eqn:C1; chr; [discriminate F1|]. destruct (Ascii.eqb c "!") eqn:C2; chr; [discriminate F1|].
  rewrite F1. rewrite scan_names by exact F2. destruct A as [->|(y & -> & A)]; [reflexivity|]. cbn. rewrite scan_attrs by exact A. reflexivity.
Qed.
Lemma scan_end n st r : element_name n -> scan (Out, n :: st) ($"</" ++ n ++ $">" ++ r) = scan (Out, st) r.
Proof.
  intros [N F]. change (scan (CName [], n :: st) (n ++ $">" ++ r) = scan (Out, st) r). rewrite scan_cnames by exact F. cbn. now rewrite bytes_eqb_refl.
Qed.
Theorem nested_scan x : nested x -> forall st r, scan (Out, st) (x ++ r) = scan (Out, st) r.
Proof.
  induction 1 as [|c x N H IH|d x N H IH|n a x E V A H IH|n a inner x E V A H IH H' IH']; intros st r; [reflexivity| | | |].
  - cbn [app scan step]. destruct (Ascii.eqb c "<") eqn:C; chr; [congruence|]. apply IH.
  - rewrite <- !app_assoc. cbn [app scan step b]. cbn. rewrite scan_bang by exact N. cbn. apply IH.
  - rewrite <- !app_assoc, scan_start by assumption. apply void_in in V. unfold opens. rewrite V. apply IH.
  - rewrite <- !app_assoc, scan_start by assumption. unfold opens. destruct (is_void n) eqn:W; [apply void_in in W; contradiction|]. rewrite IH, scan_end by exact E. apply IH'.
Qed.

(** ** Pieces *)
Lemma plain_scan x : ~ In "<"%char x -> forall st, scan (Out, st) x = Some (Out, st).
Proof.
  induction x as [|c x IH]; intros N st; [reflexivity|]. cbn [scan step]. destruct (Ascii.eqb c "<") eqn:C; chr; [exfalso; apply N; now left|].
  apply IH. intros I. apply N. now right.
Qed.
Lemma value_scan v n st : ~ In """"%char v -> scan (Val n, st) v = Some (Val n, st).
Proof. intros N. rewrite <- (app_nil_r v), scan_value by exact N. reflexivity. Qed.
Lemma push_href s : ~ In """"%char s -> ~ In """"%char (push_escaped false s).
Proof.
  intros N I. induction s as [|c r IH]; [exact I|]. cbn in I. apply in_app_or in I. destruct I as [I|I]; [|apply IH; [intros J; apply N; now right|exact I]].
  assert (Nc : c <> """"%char) by (intros ->; apply N; now left). unfold escape_char in I. rewrite !andb_false_r in I.
  repeat match type of I with In _ (if ?c then _ else _) => destruct c | In _ (match ?c with _ => _ end) => destruct c end; cbn in I;
    repeat match type of I with _ \/ _ => destruct I as [I|I] | False => destruct I end; try discriminate I; congruence.
Qed.
Fixpoint digits_ok (u : Decimal.uint) : forallb name_char (b (NilEmpty.string_of_uint u)) = true.
Proof. destruct u; cbn; try apply digits_ok; reflexivity. Qed.
Lemma dec_names n : forallb name_char (b (dec n)) = true.
Proof. unfold dec, NilZero.string_of_uint. destruct (Nat.to_uint n); [reflexivity|apply digits_ok..]. Qed.
Lemma names_no c x : name_char c = false -> forallb name_char x = true -> ~ In c x.
Proof. intros N F I. rewrite forallb_forall in F. rewrite (F _ I) in N. discriminate N. Qed.
Lemma pstep_scan q p q' : harmless p -> pstep q p = Some q' -> scan q (bytes_of_piece p) = Some q'.
Proof.
  intros H E. destruct q as [m st]. destruct p as [s|n|s|s|s|s|s]; cbn [pstep bytes_of_piece fst snd harmless] in *; [exact E|..].
  - pose proof (dec_names n) as F. destruct m; try discriminate E; injection E as <-.
    + apply plain_scan. now apply names_no.
    + rewrite <- (app_nil_r (b (dec n))) at 1. now rewrite scan_names.
    + apply value_scan. now apply names_no.
    + rewrite <- (app_nil_r (b (dec n))) at 1. now rewrite scan_cnames.
  - destruct m; try discriminate E; injection E as <-. rewrite <- (app_nil_r (b s)). now rewrite nested_scan.
  - destruct m; try discriminate E; injection E as <-. now apply value_scan.
  - destruct m; try discriminate E; injection E as <-. apply plain_scan. intros I. apply no_markup in I. tauto.
  - destruct m; try discriminate E; injection E as <-. apply value_scan. intros I. apply no_markup in I. destruct I as (_ & _ & I). destruct (I eq_refl) as [I' _]. now apply I'.
  - destruct m; try discriminate E; injection E as <-. apply value_scan. now apply push_href.
Qed.
Theorem pscan_scan ps : forall q q', Forall harmless ps -> pscan q ps = Some q' -> scan q (bytes_of ps) = Some q'.
Proof.
  induction ps as [|p ps IH]; intros q q' H E; [exact E|]. inversion H; subst. cbn [pscan] in E. destruct (pstep q p) as [q1|] eqn:P; [|discriminate E].
  cbn [bytes_of flat_map]. rewrite scan_app, (pstep_scan _ _ _ H2 P). now apply IH.
Qed.
Corollary pscan_nested ps : Forall harmless ps -> pscan (Out, []) ps = Some (Out, []) -> nested (bytes_of ps).
Proof. intros H E. apply scan_nested. now apply pscan_scan. Qed.

(** ** Depth *)
Definition deeper (q : sstate) (X : list bytes) : sstate := (fst q, snd q ++ X).
Lemma opens_app n st X : opens n st ++ X = opens n (st ++ X).
Proof. unfold opens. destruct (is_void n); reflexivity. Qed.
Lemma step_deeper X q c q' : step q c = Some q' -> step (deeper q X) c = Some (deeper q' X).
Proof.
  destruct q as [m st]. unfold deeper. cbn. destruct m; intros E;
    repeat match type of E with Some _ = Some _ => injection E as <- | (if ?c then _ else _) = _ => destruct c | match ?s with _ => _ end = _ => destruct s; cbn | None = _ => discriminate E end;
    cbn; rewrite ?opens_app; reflexivity.
Qed.
Lemma scan_deeper X x : forall q q', scan q x = Some q' -> scan (deeper q X) x = Some (deeper q' X).
Proof.
  induction x as [|c x IH]; intros q q' E; cbn [scan] in *; [now injection E as <-|]. destruct (step q c) as [q1|] eqn:S; [|discriminate E].
  rewrite (step_deeper X _ _ _ S). now apply IH.
Qed.
Lemma pstep_deeper X q p q' : pstep q p = Some q' -> pstep (deeper q X) p = Some (deeper q' X).
Proof.
  destruct p; cbn [pstep]; [apply scan_deeper|..]; destruct q as [m st]; destruct m; cbn; intros E; try discriminate E; injection E as <-; reflexivity.
Qed.
Lemma pscan_deeper X ps : forall q q', pscan q ps = Some q' -> pscan (deeper q X) ps = Some (deeper q' X).
Proof.
  induction ps as [|c x IH]; intros q q' E; cbn [pscan] in *; [now injection E as <-|]. destruct (pstep q c) as [q1|] eqn:S; [|discriminate E].
  rewrite (pstep_deeper X _ _ _ S). now apply IH.
Qed.
Corollary anywhere ps X : pscan (Out, []) ps = Some (Out, []) -> pscan (Out, X) ps = Some (Out, X).
Proof. exact (pscan_deeper X ps (Out, []) (Out, [])). Qed.
Lemma empty_scan ps : forall q q', bytes_of ps = [] -> pscan q ps = Some q' -> q' = q.
Proof.
  induction ps as [|p ps IH]; intros q q' B E; cbn in E; [congruence|]. cbn in B. apply app_eq_nil in B as [B1 B2]. destruct (pstep q p) as [q1|] eqn:S; [|discriminate E].
  rewrite (IH _ _ B2 E). clear E IH B2. destruct p as [s|n|s|s|s|s|s]; cbn in S, B1; try (destruct (fst q); congruence).
  - rewrite B1 in S. cbn in S. congruence.
  - exfalso. revert B1. unfold dec, NilZero.string_of_uint. destruct (Nat.to_uint n); discriminate.
Qed.
