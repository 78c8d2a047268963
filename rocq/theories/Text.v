(** Text functions of the Rust standard library that several models use, with their specifications. *)
From Verif Require Import Base.

Definition bytes_of (l : list nat) : bytes := map ascii_of_nat l.
(** The UTF-8 encodings of the characters with Unicode property White_Space ([char::is_whitespace]). *)
Definition white : list bytes := map bytes_of
  [[9]; [10]; [11]; [12]; [13]; [32]; [194; 133]; [194; 160]; [225; 154; 128];
   [226; 128; 128]; [226; 128; 129]; [226; 128; 130]; [226; 128; 131]; [226; 128; 132]; [226; 128; 133]; [226; 128; 134];
   [226; 128; 135]; [226; 128; 136]; [226; 128; 137]; [226; 128; 138];
   [226; 128; 168]; [226; 128; 169]; [226; 128; 175]; [226; 129; 159]; [227; 128; 128]].

Fixpoint strip_any (ps : list bytes) (s : bytes) : option bytes :=
  match ps with
  | [] => None
  | p :: r => if starts_with p s then Some (skipn (length p) s) else strip_any r s
  end.
Fixpoint trim_with (ps : list bytes) (fuel : nat) (s : bytes) : bytes :=
  match fuel with
  | O => s
  | S f => match strip_any ps s with Some t => trim_with ps f t | None => s end
  end.
(** [str::trim_start], [str::trim_end], [str::trim] *)
Definition trim_start (s : bytes) : bytes := trim_with white (length s) s.
Definition trim_back (s : bytes) : bytes := rev (trim_with (map (@rev ascii) white) (length s) (rev s)).
Definition trim (s : bytes) : bytes := trim_back (trim_start s).

(** [str::parse::<usize>] (64 bit): an optional plus sign, then digits; [None] also on overflow *)
Definition digit_of (c : ascii) : option N :=
  let n := N_of_ascii c in if ((48 <=? n) && (n <=? 57))%N then Some (n - 48)%N else None.
Fixpoint digits_value (acc : N) (s : bytes) : option N :=
  match s with
  | [] => Some acc
  | c :: r => match digit_of c with Some d => digits_value (10 * acc + d)%N r | None => None end
  end.
Definition parse_bounded (bound : N) (s : bytes) : option N :=
  let s := match s with "+"%char :: r => r | _ => s end in
  match s with
  | [] => None
  | _ => match digits_value 0 s with Some n => if (n <? bound)%N then Some n else None | None => None end
  end.
Definition usize_bound : N := (2 ^ 64)%N.
Definition parse_usize : bytes -> option N := parse_bounded usize_bound.

(** [str::find] with a string pattern, and [str::split_once] *)
Fixpoint find_sub (p s : bytes) : option nat :=
  if starts_with p s then Some 0 else match s with [] => None | _ :: t => option_map S (find_sub p t) end.
Definition split_once (p s : bytes) : option (bytes * bytes) :=
  match find_sub p s with Some i => Some (firstn i s, skipn (i + length p) s) | None => None end.
(** [str::split] with a set of characters *)
Fixpoint split_by (f : ascii -> bool) (s : bytes) : list bytes :=
  match s with
  | [] => [[]]
  | c :: r => if f c then [] :: split_by f r else match split_by f r with p :: ps => (c :: p) :: ps | [] => [[c]] end
  end.

(** ** Specifications *)
Definition white_string (s : bytes) : Prop := exists ws, Forall (fun w => In w white) ws /\ s = concat ws.
Definition trimmed (s t : bytes) : Prop :=
  exists a z, s = a ++ t ++ z /\ white_string a /\ white_string z /\
    (forall w r, In w white -> t <> w ++ r) /\ (forall w r, In w white -> t <> r ++ w).
Definition value (digits : bytes) : N := fold_left (fun acc c => (10 * acc + (N_of_ascii c - 48))%N) digits 0%N.
Definition digit (c : ascii) : Prop := In c ($"0123456789").
(** [t] is written as a decimal numeral for [n] *)
Definition numeral (bound : N) (t : bytes) (n : N) : Prop :=
  exists ds, (t = ds \/ t = "+"%char :: ds) /\ ds <> [] /\ Forall digit ds /\ n = value ds /\ (n < bound)%N.
(** [part] is a maximal piece of [s] free of separators *)
Definition piece (f : ascii -> bool) (s part : bytes) : Prop :=
  exists a z, s = a ++ part ++ z /\ Forall (fun c => f c = false) part /\
    (a = [] \/ exists x c, a = x ++ [c] /\ f c = true) /\ (z = [] \/ exists c x, z = c :: x /\ f c = true).

(** ** Facts *)
Lemma firstn_len {A} (x y : list A) : firstn (length x) (x ++ y) = x.
Proof. rewrite firstn_app, Nat.sub_diag, firstn_O, app_nil_r, firstn_all. reflexivity. Qed.
Lemma skipn_len {A} (x y : list A) : skipn (length x) (x ++ y) = y.
Proof. rewrite skipn_app, Nat.sub_diag, skipn_all. reflexivity. Qed.
Lemma starts_app p r : starts_with p (p ++ r) = true.
Proof. apply starts_with_spec. exists r. reflexivity. Qed.

Lemma strip_any_some ps s t : strip_any ps s = Some t -> exists w, In w ps /\ s = w ++ t.
Proof.
  induction ps as [|p ps IH]; [discriminate|]. cbn [strip_any]. destruct (starts_with p s) eqn:E.
  - apply starts_with_spec in E as (r & ->). rewrite skipn_len. intro H. injection H as <-. exists p. split; [left|]; reflexivity.
  - intro H. destruct (IH H) as (w & I & Q). exists w. split; [right; exact I|exact Q].
Qed.
Lemma strip_any_none ps s : strip_any ps s = None -> forall w r, In w ps -> s <> w ++ r.
Proof.
  induction ps as [|p ps IH]; [intros _ w r []|]. cbn [strip_any]. destruct (starts_with p s) eqn:E; [discriminate|]. intros H w r [<-|I] Q; [|exact (IH H w r I Q)].
  subst. rewrite starts_app in E. discriminate.
Qed.
Definition nonempty_all (ps : list bytes) := Forall (fun p => p <> []) ps.
Lemma trim_with_spec ps : nonempty_all ps -> forall fuel s, length s <= fuel ->
  exists ws, Forall (fun w => In w ps) ws /\ s = concat ws ++ trim_with ps fuel s /\ forall w r, In w ps -> trim_with ps fuel s <> w ++ r.
Proof.
  intros NE. induction fuel as [|fuel IH]; intros s L.
  - exists []. split; [constructor|]. split; [reflexivity|]. destruct s; [|cbn in L; lia]. intros w r I. unfold nonempty_all in NE. rewrite Forall_forall in NE. specialize (NE w I).
    cbn. destruct w; [congruence|discriminate].
  - cbn [trim_with]. destruct (strip_any ps s) as [t|] eqn:E.
    + destruct (strip_any_some _ _ _ E) as (w & I & ->). assert (w <> []) by (unfold nonempty_all in NE; rewrite Forall_forall in NE; auto).
      destruct (IH t) as (ws & F & Q & N). { rewrite app_length in L. destruct w; [congruence|]. cbn in L. lia. }
      exists (w :: ws). split; [constructor; assumption|]. split; [|exact N]. cbn [concat]. rewrite <- app_assoc, <- Q. reflexivity.
    + exists []. split; [constructor|]. split; [reflexivity|]. exact (strip_any_none _ _ E).
Qed.
(** no member of the list is a proper prefix of another *)
Definition prefix_free (ps : list bytes) := forall p q r r', In p ps -> In q ps -> p ++ r = q ++ r' -> p = q.
Lemma strip_any_own ps w r : prefix_free ps -> In w ps -> strip_any ps (w ++ r) = Some r.
Proof.
  intros PF I. destruct (strip_any ps (w ++ r)) as [t|] eqn:E.
  - destruct (strip_any_some _ _ _ E) as (v & J & Q). assert (w = v) by (eapply PF; eauto). subst. apply app_inv_head in Q. subst. reflexivity.
  - destruct (strip_any_none _ _ E w r I eq_refl).
Qed.
Lemma trim_with_own ps : prefix_free ps -> nonempty_all ps -> forall ws t fuel, Forall (fun w => In w ps) ws -> (forall w r, In w ps -> t <> w ++ r) ->
  length (concat ws ++ t) <= fuel -> trim_with ps fuel (concat ws ++ t) = t.
Proof.
  intros PF NE. induction ws as [|w ws IH]; intros t fuel F N L; cbn [concat app] in *.
  - destruct fuel as [|fuel]; [reflexivity|]. cbn [trim_with]. destruct (strip_any ps t) eqn:E; [|reflexivity]. destruct (strip_any_some _ _ _ E) as (w & I & Q). destruct (N w _ I Q).
  - inversion F as [|? ? I F']; subst. assert (w <> []) by (unfold nonempty_all in NE; rewrite Forall_forall in NE; auto). rewrite <- app_assoc in *. rewrite app_length in L.
    destruct fuel as [|fuel]; [destruct w; [congruence|cbn in L; lia]|]. cbn [trim_with]. rewrite strip_any_own by assumption. apply IH; auto. destruct w; [congruence|cbn in L; lia].
Qed.
Fixpoint clash (p q : bytes) : bool :=
  match p, q with
  | [], _ => true
  | _, [] => true
  | a :: p', c :: q' => Ascii.eqb a c && clash p' q'
  end.
Lemma clash_app p q r r' : p ++ r = q ++ r' -> clash p q = true.
Proof.
  revert q. induction p as [|a p IH]; intros [|c q] E; try reflexivity. cbn in *. injection E as -> E. rewrite Ascii.eqb_refl. cbn. exact (IH q E).
Qed.
Definition prefix_free_b (ps : list bytes) : bool := forallb (fun p => forallb (fun q => bytes_eqb p q || negb (clash p q)) ps) ps.
Lemma prefix_free_dec ps : prefix_free_b ps = true -> prefix_free ps.
Proof.
  intros H p q r r' I J E. unfold prefix_free_b in H. rewrite forallb_forall in H. specialize (H p I). rewrite forallb_forall in H. specialize (H q J).
  rewrite (clash_app _ _ _ _ E), orb_false_r in H. apply bytes_eqb_eq, H.
Qed.
Lemma white_free : prefix_free white.
Proof. apply prefix_free_dec. vm_compute. reflexivity. Qed.
Lemma white_back_free : prefix_free (map (@rev ascii) white).
Proof. apply prefix_free_dec. vm_compute. reflexivity. Qed.
Lemma white_nonempty : nonempty_all white.
Proof. unfold nonempty_all, white. repeat (constructor; [discriminate|]). constructor. Qed.
Lemma white_back_nonempty : nonempty_all (map (@rev ascii) white).
Proof. unfold nonempty_all, white. cbn [map]. repeat (constructor; [discriminate|]). constructor. Qed.
Lemma in_back w : In w (map (@rev ascii) white) <-> In (rev w) white.
Proof.
  rewrite in_map_iff. split; [intros (x & <- & I); rewrite rev_involutive; exact I|intro I; exists (rev w); rewrite rev_involutive; auto].
Qed.
Lemma concat_rev (ws : list bytes) : rev (concat ws) = concat (map (@rev ascii) (rev ws)).
Proof. induction ws as [|w ws IH]; [reflexivity|]. cbn [concat rev]. rewrite rev_app_distr, map_app, concat_app, IH. cbn. rewrite app_nil_r. reflexivity. Qed.
Lemma trim_start_spec s : exists ws, Forall (fun w => In w white) ws /\ s = concat ws ++ trim_start s /\ forall w r, In w white -> trim_start s <> w ++ r.
Proof. apply (trim_with_spec white white_nonempty (length s) s). auto. Qed.
Lemma trim_back_spec s : exists ws, Forall (fun w => In w white) ws /\ s = trim_back s ++ concat ws /\ forall w r, In w white -> trim_back s <> r ++ w.
Proof.
  unfold trim_back. destruct (trim_with_spec _ white_back_nonempty (length s) (rev s)) as (ws & F & E & N); [rewrite rev_length; auto|].
  exists (map (@rev ascii) (rev ws)). split; [|split].
  - apply Forall_map, Forall_rev. eapply Forall_impl; [|exact F]. intros w H. exact (proj1 (in_back w) H).
  - apply (f_equal (@rev ascii)) in E. rewrite rev_involutive, rev_app_distr, concat_rev in E. exact E.
  - intros w r I H. apply (f_equal (@rev ascii)) in H. rewrite rev_involutive, rev_app_distr in H. apply (N (rev w) (rev r)); [apply in_back; rewrite rev_involutive; exact I|exact H].
Qed.
Lemma trim_spec s : trimmed s (trim s).
Proof.
  unfold trim. destruct (trim_start_spec s) as (ws & F & E & N). destruct (trim_back_spec (trim_start s)) as (vs & G & Q & M). set (t := trim_back (trim_start s)) in *.
  exists (concat ws), (concat vs). repeat split.
  - rewrite <- Q. exact E.
  - exists ws. auto.
  - exists vs. auto.
  - intros w r I H. apply (N w (r ++ concat vs) I). rewrite Q, H, <- app_assoc. reflexivity.
  - exact M.
Qed.
Lemma trim_back_own t z : white_string z -> (forall w r, In w white -> t <> r ++ w) -> trim_back (t ++ z) = t.
Proof.
  intros (ws & F & ->) N. unfold trim_back. rewrite rev_app_distr, concat_rev.
  rewrite (trim_with_own _ white_back_free white_back_nonempty).
  - apply rev_involutive.
  - apply Forall_map, Forall_rev. eapply Forall_impl; [|exact F]. intros w I. apply in_back. rewrite rev_involutive. exact I.
  - intros w r I H. apply in_back in I. apply (N _ (rev r) I). rewrite <- rev_app_distr, <- H, rev_involutive. reflexivity.
  - rewrite <- concat_rev, <- rev_app_distr, rev_length. auto.
Qed.
Lemma trim_start_own t a : white_string a -> (forall w r, In w white -> t <> w ++ r) -> trim_start (a ++ t) = t.
Proof. intros (ws & F & ->) N. unfold trim_start. apply (trim_with_own _ white_free white_nonempty); auto. Qed.
Lemma trim_unique s t : trimmed s t -> trim s = t.
Proof.
  intros (a & z & -> & A & Z & N & M). unfold trim. destruct t as [|c t].
  - cbn [app]. assert (W : white_string (a ++ z)) by (destruct A as (x & Fx & ->), Z as (y & Fy & ->); exists (x ++ y); rewrite concat_app; split; [apply Forall_app; auto|reflexivity]).
    rewrite <- (app_nil_r (a ++ z)), (trim_start_own [] _ W).
    + change (@nil ascii) with ([] ++ @nil ascii) at 1. apply trim_back_own; [exists []; split; [constructor|reflexivity]|]. exact M.
    + exact N.
  - rewrite trim_start_own; [apply trim_back_own; assumption|exact A|]. intros w r I H.
    (* a white character cannot straddle the end of a nonempty text that begins with none *)
    destruct (Nat.le_gt_cases (length w) (length (c :: t))) as [L|L].
    + apply (N w (skipn (length w) (c :: t)) I). apply (f_equal (firstn (length w))) in H. rewrite firstn_len, firstn_app in H.
      replace (length w - length (c :: t)) with 0 in H by lia. rewrite firstn_O, app_nil_r in H. rewrite <- H at 1. symmetry. apply firstn_skipn.
    + destruct Z as (ws & F & ->). destruct ws as [|v ws]; [cbn [concat] in H; rewrite app_nil_r in H; apply (N w r I); exact H|]. inversion F as [|? ? J _]; subst.
      (* byte [length (c :: t)] of [w] is the first byte of [v] *)
      assert (K : nth_error w (length (c :: t)) = nth_error v 0).
      { apply (f_equal (fun l => nth_error l (length (c :: t)))) in H. rewrite nth_error_app2, Nat.sub_diag in H by lia. rewrite nth_error_app1 in H by exact L. cbn [concat] in H.
        rewrite nth_error_app1 in H; [symmetry; exact H|]. pose proof white_nonempty as NE. unfold nonempty_all in NE. rewrite Forall_forall in NE. specialize (NE v J). destruct v; [congruence|cbn; lia]. }
      exfalso. cbn [length] in K. revert K. generalize (length t). clear - I J. intros n K.
      assert (B : forallb (fun w => forallb (fun v => forallb (fun d => match v with e :: _ => negb (Ascii.eqb d e) | [] => true end) (skipn 1 w)) white) white = true) by (vm_compute; reflexivity).
      rewrite forallb_forall in B. specialize (B w I). rewrite forallb_forall in B. specialize (B v J). destruct v as [|e v].
      { pose proof white_nonempty as NE. unfold nonempty_all in NE. rewrite Forall_forall in NE. destruct (NE [] J eq_refl). }
      rewrite forallb_forall in B. cbn [nth_error] in K. specialize (B e). rewrite Ascii.eqb_refl in B. cbn in B. discriminate B || (assert (In e (skipn 1 w)); [|auto; specialize (B H); discriminate]).
      destruct w as [|x w]; [discriminate|]. cbn in K. cbn. eapply nth_error_In, K.
Qed.

Lemma digits_value_spec s : forall acc n, digits_value acc s = Some n <-> Forall digit s /\ n = fold_left (fun acc c => (10 * acc + (N_of_ascii c - 48))%N) s acc.
Proof.
  assert (D : forall c, match digit_of c with Some d => digit c /\ d = (N_of_ascii c - 48)%N | None => ~ digit c end).
  { intro c. unfold digit. destruct c as [[] [] [] [] [] [] [] []]; vm_compute; try (split; [tauto|reflexivity]); intro H; repeat destruct H as [H|H]; try discriminate; contradiction. }
  induction s as [|c s IH]; intros acc n; cbn [digits_value fold_left].
  - split; [intro H; injection H as <-; auto|intros [_ ->]; reflexivity].
  - specialize (D c). destruct (digit_of c) as [d|].
    + destruct D as [D ->]. rewrite IH. split; [intros [F E]; split; [constructor; assumption|exact E]|intros [F E]; inversion F; auto].
    + split; [discriminate|]. intros [F _]. inversion F. contradiction.
Qed.
Lemma parse_bounded_spec bound s n : parse_bounded bound s = Some n <-> numeral bound s n.
Proof.
  assert (K : forall ds, ds <> [] -> (match digits_value 0 ds with Some m => if (m <? bound)%N then Some m else None | None => None end) = Some n <->
    Forall digit ds /\ n = value ds /\ (n < bound)%N).
  { intros ds _. destruct (digits_value 0 ds) as [m|] eqn:E.
    - apply digits_value_spec in E as [F ->]. fold (value ds). destruct (value ds <? bound)%N eqn:L.
      + apply N.ltb_lt in L. split; [intro H; injection H as <-; auto|intros (_ & -> & _); reflexivity].
      + apply N.ltb_ge in L. split; [discriminate|]. intros (_ & -> & H). lia.
    - split; [discriminate|]. intros (F & H & _). assert (digits_value 0 ds = Some (value ds)) by (apply digits_value_spec; auto). congruence. }
  assert (PLUS : ~ digit "+"%char) by (unfold digit; cbn; intro H; repeat destruct H as [H|H]; try discriminate; contradiction).
  unfold parse_bounded, numeral. cbv zeta.
  assert (C : (exists r, s = "+"%char :: r) \/ (forall r, s <> "+"%char :: r)).
  { destruct s as [|c r]; [right; discriminate|]. destruct (Ascii.ascii_dec c "+"%char) as [->|N]; [left; exists r; reflexivity|right; congruence]. }
  destruct C as [(r & ->)|C].
  - cbv iota. destruct r as [|c r]; [split; [discriminate|]; intros (ds & [Q|Q] & NE & F & _); [subst; inversion F; contradiction|injection Q as <-; congruence]|].
    rewrite (K (c :: r)) by discriminate. split; [intros (F & E & L); exists (c :: r); repeat split; auto; discriminate|].
    intros (ds & [Q|Q] & NE & F & E & L); [subst ds; inversion F; contradiction|injection Q as <-; auto].
  - assert (M : (match s with "+"%char :: r => r | _ => s end) = s).
    { destruct s as [|c r]; [reflexivity|]. destruct c as [[] [] [] [] [] [] [] []]; try reflexivity. destruct (C r eq_refl). }
    rewrite M. destruct s as [|c r]; [split; [discriminate|]; intros (ds & [Q|Q] & NE & _); [congruence|discriminate]|].
    rewrite (K (c :: r)) by discriminate. split; [intros (F & E & L); exists (c :: r); repeat split; auto; discriminate|].
    intros (ds & [Q|Q] & NE & F & E & L); [subst ds; auto|destruct (C ds Q)].
Qed.

Lemma find_sub_spec p : forall s i, find_sub p s = Some i -> exists a z, s = a ++ p ++ z /\ i = length a /\ forall a' z', s = a' ++ p ++ z' -> length a <= length a'.
Proof.
  induction s as [|c s IH]; intros i; cbn [find_sub].
  - destruct (starts_with p []) eqn:E; [|discriminate]. intro H. injection H as <-. apply starts_with_spec in E as (r & E). exists [], r. repeat split; auto. intros. cbn. lia.
  - destruct (starts_with p (c :: s)) eqn:E.
    + intro H. injection H as <-. apply starts_with_spec in E as (r & E). exists [], r. repeat split; auto. intros. cbn. lia.
    + destruct (find_sub p s) as [j|]; [|discriminate]. intro H. injection H as <-. destruct (IH j eq_refl) as (a & z & -> & -> & M). exists (c :: a), z. repeat split; auto.
      intros [|x a'] z' H; [|cbn [app length] in *; injection H as _ H; specialize (M _ _ H); lia].
      cbn [app] in H. assert (starts_with p (c :: a ++ p ++ z) = true) by (apply starts_with_spec; exists z'; exact H). congruence.
Qed.
Lemma find_sub_none p : forall s, find_sub p s = None -> forall a z, s <> a ++ p ++ z.
Proof.
  induction s as [|c s IH]; cbn [find_sub].
  - destruct (starts_with p []) eqn:E; [discriminate|]. intros _ a z H. symmetry in H. apply app_eq_nil in H as [_ H]. assert (starts_with p [] = true) by (apply starts_with_spec; exists z; auto). congruence.
  - destruct (starts_with p (c :: s)) eqn:E; [discriminate|]. destruct (find_sub p s); [discriminate|]. intros _ [|x a] z H.
    + assert (starts_with p (c :: s) = true) by (apply starts_with_spec; exists z; exact H). congruence.
    + injection H as -> H. exact (IH eq_refl a z H).
Qed.
Lemma split_once_spec p s : match split_once p s with
  | Some (a, z) => s = a ++ p ++ z /\ forall a' z', s = a' ++ p ++ z' -> length a <= length a'
  | None => forall a z, s <> a ++ p ++ z
  end.
Proof.
  unfold split_once. destruct (find_sub p s) as [i|] eqn:E.
  - destruct (find_sub_spec _ _ _ E) as (a & z & -> & -> & M). rewrite firstn_len, skipn_app, skipn_all2 by lia.
    replace (length a + length p - length a) with (length p) by lia. cbn [app]. rewrite skipn_len. auto.
  - exact (find_sub_none _ _ E).
Qed.

Lemma split_by_nonnil f s : split_by f s <> [].
Proof. destruct s as [|c s]; cbn; [discriminate|]. destruct (f c); [discriminate|]. destruct (split_by f s); discriminate. Qed.
Lemma split_by_free f s : Forall (Forall (fun c => f c = false)) (split_by f s).
Proof.
  induction s as [|c s IH]; cbn; [repeat constructor|]. destruct (f c) eqn:E; [constructor; [constructor|exact IH]|].
  destruct (split_by f s); [repeat constructor; exact E|]. inversion IH; subst. constructor; [constructor|]; assumption.
Qed.
Lemma split_by_one f (p : bytes) : Forall (fun c => f c = false) p -> split_by f p = [p].
Proof. induction 1 as [|c p E F IH]; [reflexivity|]. cbn. rewrite E, IH. reflexivity. Qed.
Lemma split_by_app f p c r : Forall (fun c => f c = false) p -> f c = true -> split_by f (p ++ c :: r) = p :: split_by f r.
Proof.
  intros F E. induction F as [|d p D F IH]; cbn; [rewrite E; reflexivity|]. rewrite D, IH. reflexivity.
Qed.
Lemma split_by_mid f a c r : f c = true -> split_by f (a ++ c :: r) = split_by f a ++ split_by f r.
Proof.
  intro E. induction a as [|d a IH]; cbn; [rewrite E; reflexivity|]. destruct (f d); [rewrite IH; reflexivity|]. rewrite IH.
  destruct (split_by f a) eqn:Q; [destruct (split_by_nonnil f a Q)|reflexivity].
Qed.
Lemma split_cases (f : ascii -> bool) (s : bytes) : Forall (fun c => f c = false) s \/ exists p c r, s = p ++ c :: r /\ Forall (fun c => f c = false) p /\ f c = true.
Proof.
  induction s as [|d s IH]; [left; constructor|]. destruct (f d) eqn:E; [right; exists [], d, s; auto|].
  destruct IH as [IH|(p & c & r & -> & F & C)]; [left; constructor; assumption|right; exists (d :: p), c, r; auto].
Qed.
Lemma split_by_spec f s part : In part (split_by f s) <-> piece f s part.
Proof.
  split.
  - remember (length s) as n eqn:Q. revert s Q part. induction n as [n IH] using lt_wf_ind. intros s -> part I.
    destruct (split_cases f s) as [F|(p & c & r & -> & F & C)].
    + rewrite split_by_one in I by exact F. destruct I as [<-|[]]. exists [], []. rewrite app_nil_r. auto.
    + rewrite split_by_app in I by assumption. destruct I as [<-|I]; [exists [], (c :: r); split; [reflexivity|]; split; [exact F|]; split; [auto|]; right; exists c, r; auto|].
      destruct (IH (length r)) with (s := r) (part := part) as (a & z & -> & G & A & Z); auto; [rewrite app_length; cbn; lia|].
      exists (p ++ c :: a), z. split; [rewrite <- app_assoc; reflexivity|]. split; [exact G|]. split; [|exact Z]. right. destruct A as [->|(x & d & -> & D)].
      * exists p, c. auto.
      * exists (p ++ c :: x), d. rewrite <- app_assoc. auto.
  - intros (a & z & -> & F & A & Z).
    assert (H : In part (split_by f (part ++ z))).
    { destruct Z as [->|(c & x & -> & E)]; [rewrite app_nil_r, split_by_one by exact F; left; reflexivity|]. rewrite split_by_app by assumption. left. reflexivity. }
    destruct A as [->|(x & c & -> & E)]; [exact H|]. rewrite <- app_assoc. cbn [app]. rewrite split_by_mid by exact E. apply in_or_app. right. exact H.
Qed.
