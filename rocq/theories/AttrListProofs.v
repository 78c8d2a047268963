From Verif Require Import AttrListModel AttrListSpec.
Import ListNotations.

Lemma is_k_eq k t : is_k k t = true <-> tk t = k.
Proof. unfold is_k. destruct (kind_eqb_spec (tk t) k); split; congruence. Qed.
Lemma is_k_neq k t : is_k k t = false <-> tk t <> k.
Proof. unfold is_k. destruct (kind_eqb_spec (tk t) k); split; congruence. Qed.
Lemma is_k_of k t : tk t = k -> is_k k t = true.
Proof. apply is_k_eq. Qed.
Lemma not_k k t : tk t <> k -> is_k k t = false.
Proof. apply is_k_neq. Qed.
Lemma not_in_k ks k t : ~ In (tk t) ks -> In k ks -> is_k k t = false.
Proof. intros N I. apply not_k. intros <-. exact (N I). Qed.
Lemma one_of_in ks t : one_of ks t = true <-> In (tk t) ks.
Proof.
  unfold one_of. rewrite existsb_exists. split.
  - intros (k & I & E). destruct (kind_eqb_spec (tk t) k); [subst; exact I|discriminate].
  - intro I. exists (tk t). split; [exact I|]. destruct (kind_eqb_spec (tk t) (tk t)); congruence.
Qed.
Lemma one_of_not ks t : one_of ks t = false <-> ~ In (tk t) ks.
Proof. rewrite <- one_of_in. destruct (one_of ks t); split; congruence. Qed.
Lemma free_app ks a b : free ks (a ++ b) <-> free ks a /\ free ks b.
Proof. apply Forall_app. Qed.
Lemma free_in ks l t : free ks l -> In t l -> ~ In (tk t) ks.
Proof. unfold free. rewrite Forall_forall. auto. Qed.
Lemma free_sub ks ks' l : incl ks' ks -> free ks l -> free ks' l.
Proof. intros I F. eapply Forall_impl; [|exact F]. intros t N X. exact (N (I _ X)). Qed.

(** ** Delimiters *)
Definition total (ds : list nat) : nat := list_sum ds + length ds.
Lemma pop_all base ext n : pop_to (length base) (ext ++ base) n = (base, n + total ext).
Proof.
  revert n. induction ext as [|d ext IH]; intro n; cbn [app].
  - unfold total. cbn. rewrite !Nat.add_0_r. destruct base as [|x r]; [reflexivity|]. cbn [pop_to]. rewrite Nat.ltb_irrefl. reflexivity.
  - cbn [pop_to]. replace (length base <? length (d :: ext ++ base)) with true by (symmetry; apply Nat.ltb_lt; cbn; rewrite app_length; lia).
    rewrite IH. unfold total. cbn [list_sum length fold_right]. f_equal. unfold list_sum. lia.
Qed.
Lemma pop_some j base ext n : length base <= j -> exists ext', pop_to j (ext ++ base) n = (ext' ++ base, n + total ext - total ext') /\ total ext' <= total ext /\ length (ext' ++ base) <= length (ext ++ base).
Proof.
  revert n. induction ext as [|d ext IH]; intros n L; cbn [app].
  - exists []. split; [|unfold total; cbn; lia]. destruct base as [|x r]; [cbn; f_equal; unfold total; cbn; lia|]. cbn [pop_to].
    destruct (Nat.ltb_spec j (length (x :: r))); [lia|]. cbn [app]. f_equal. unfold total. cbn. lia.
  - cbn [pop_to]. destruct (Nat.ltb_spec j (length (d :: ext ++ base))).
    + destruct (IH (n + d + 1) L) as (ext' & E & T & Le). exists ext'. rewrite E. unfold total in *. cbn [list_sum fold_right length app] in *. unfold list_sum in *. repeat split; [f_equal; lia|lia|lia].
    + exists (d :: ext). cbn [app]. split; [f_equal; lia|lia].
Qed.

Lemma even_step n : Nat.Even (S n) <-> ~ Nat.Even n.
Proof. rewrite Nat.Even_succ. split; [intros O E; exact (Nat.Even_Odd_False _ E O)|]. destruct (Nat.Even_or_Odd n); tauto. Qed.
Definition parity (s : option nat) (n : nat) : Prop := match s with None => Nat.Even n | Some _ => Nat.Odd n end.

Lemma in_double b : free [DoubleQuote; CloseBracket] b -> forall base ext n s r, parity s (count SingleQuote b) -> match s with Some j => length base <= j | None => True end ->
  scan_delims (b ++ dq :: r) (ext ++ base) n (Some (length base)) s = scan_delims r base (n + total ext + length b + 1) None None.
Proof.
  induction b as [|t b IH]; intros F base ext n s r P J.
  - cbn [app scan_delims]. change (is_k DoubleQuote dq) with true. cbv iota. rewrite pop_all. destruct s; [destruct P as [m P]; cbn in P; lia|]. f_equal. cbn. lia.
  - inversion F as [|? ? N F']; subst. cbn [app scan_delims]. rewrite (not_in_k _ DoubleQuote t N) by (cbn; tauto).
    destruct (is_k SingleQuote t) eqn:SQ.
    + assert (C : count SingleQuote (t :: b) = S (count SingleQuote b)) by (unfold count; cbn [filter]; rewrite SQ; reflexivity). rewrite C in P. destruct s as [j|].
      * destruct (pop_some j base ext (S n) J) as (ext' & E & T & _). rewrite E. rewrite IH; [f_equal; cbn [length]; lia|exact F'|apply Nat.Odd_succ; exact P|exact I].
      * rewrite IH; [f_equal; cbn [length]; lia|exact F'|apply Nat.Even_succ; exact P|rewrite app_length; lia].
    + assert (C : count SingleQuote (t :: b) = count SingleQuote b) by (unfold count; cbn [filter]; rewrite SQ; reflexivity). rewrite C in P.
      destruct (is_k Comma t) eqn:CO.
      * change (n :: ext ++ base) with ((n :: ext) ++ base). rewrite IH; [f_equal; unfold total; cbn [list_sum fold_right length]; unfold list_sum; lia|exact F'|exact P|exact J].
      * rewrite (not_in_k _ CloseBracket t N) by (cbn; tauto). rewrite IH; [f_equal; cbn [length]; lia|exact F'|exact P|exact J].
Qed.
Lemma in_single b : free [SingleQuote; CloseBracket] b -> forall base ext n s r, parity s (count DoubleQuote b) -> match s with Some j => length base <= j | None => True end ->
  scan_delims (b ++ sq :: r) (ext ++ base) n s (Some (length base)) = scan_delims r base (n + total ext + length b + 1) None None.
Proof.
  induction b as [|t b IH]; intros F base ext n s r P J.
  - cbn [app scan_delims]. change (is_k DoubleQuote sq) with false. change (is_k SingleQuote sq) with true. cbv iota. rewrite pop_all. destruct s; [destruct P as [m P]; cbn in P; lia|]. f_equal. cbn. lia.
  - inversion F as [|? ? N F']; subst. cbn [app scan_delims]. destruct (is_k DoubleQuote t) eqn:DQ.
    + assert (C : count DoubleQuote (t :: b) = S (count DoubleQuote b)) by (unfold count; cbn [filter]; rewrite DQ; reflexivity). rewrite C in P. destruct s as [j|].
      * destruct (pop_some j base ext (S n) J) as (ext' & E & T & _). rewrite E. rewrite IH; [f_equal; cbn [length]; lia|exact F'|apply Nat.Odd_succ; exact P|exact I].
      * rewrite IH; [f_equal; cbn [length]; lia|exact F'|apply Nat.Even_succ; exact P|rewrite app_length; lia].
    + assert (C : count DoubleQuote (t :: b) = count DoubleQuote b) by (unfold count; cbn [filter]; rewrite DQ; reflexivity). rewrite C in P.
      rewrite (not_in_k _ SingleQuote t N) by (cbn; tauto). destruct (is_k Comma t) eqn:CO.
      * change (n :: ext ++ base) with ((n :: ext) ++ base). rewrite IH; [f_equal; unfold total; cbn [list_sum fold_right length]; unfold list_sum; lia|exact F'|exact P|exact J].
      * rewrite (not_in_k _ CloseBracket t N) by (cbn; tauto). rewrite IH; [f_equal; cbn [length]; lia|exact F'|exact P|exact J].
Qed.

Lemma scan_chunk c r ds n : chunk_ok c -> scan_delims (chunk_src c ++ r) ds n None None = scan_delims r ds (n + length (chunk_src c)) None None.
Proof.
  destruct c as [t|b|b]; intro O; cbn [chunk_src app].
  - cbn [scan_delims]. rewrite !(not_in_k _ _ t O) by (cbn; tauto). f_equal. cbn. lia.
  - destruct O as [F E]. cbn [scan_delims]. change (is_k DoubleQuote dq) with true. cbv iota. rewrite <- app_assoc. cbn [app].
    pose proof (in_double b F ds [] (S n) None r E I) as X. cbn [app] in X. rewrite X. f_equal. cbn [length]. rewrite app_length. unfold total. cbn. lia.
  - destruct O as [F E]. cbn [scan_delims]. change (is_k DoubleQuote sq) with false. change (is_k SingleQuote sq) with true. cbv iota. rewrite <- app_assoc. cbn [app].
    pose proof (in_single b F ds [] (S n) None r E I) as X. cbn [app] in X. rewrite X. f_equal. cbn [length]. rewrite app_length. unfold total. cbn. lia.
Qed.
Lemma scan_chunks cs r ds n : Forall chunk_ok cs -> scan_delims (src cs ++ r) ds n None None = scan_delims r ds (n + length (src cs)) None None.
Proof.
  intro F. revert n. induction F as [|c cs O F IH]; intro n; [cbn; f_equal; lia|]. unfold src. cbn [flat_map]. fold (src cs). rewrite <- app_assoc, scan_chunk by exact O. rewrite IH. f_equal. rewrite app_length. lia.
Qed.
(** nothing, or a closing bracket and what follows *)
Definition closes (x : list tok) : Prop := match x with [] => True | c :: _ => tk c = CloseBracket end.
Lemma scan_end x ds n : closes x -> scan_delims x ds n None None = ds.
Proof. destruct x as [|c x]; [reflexivity|]. cbn [closes scan_delims]. intro K. rewrite !not_k by congruence. rewrite (is_k_of _ _ K). reflexivity. Qed.
Lemma scan_items items x : Forall (Forall chunk_ok) items -> closes x -> forall ds, scan_delims (commas (map src items) ++ x) ds 0 None None = rev (map (fun i => length (src i)) (removelast items)) ++ ds.
Proof.
  intros F K. induction F as [|i items O F IH]; intro ds; [cbn; apply scan_end; exact K|]. destruct items as [|j items].
  - cbn [map commas removelast rev app]. rewrite scan_chunks by exact O. apply scan_end. exact K.
  - cbn [map commas] in *. rewrite <- app_assoc, scan_chunks by exact O. cbn [app scan_delims]. change (is_k DoubleQuote comma) with false. change (is_k SingleQuote comma) with false.
    change (is_k Comma comma) with true. cbv iota. rewrite IH. cbn [removelast map rev]. cbn [removelast]. rewrite <- app_assoc. cbn [app Nat.add]. reflexivity.
Qed.
Lemma removelast_closes l c rest : tk c = CloseBracket -> exists x, removelast (l ++ c :: rest) = l ++ x /\ closes x.
Proof.
  intro K. rewrite removelast_app by discriminate. eexists. split; [reflexivity|]. destruct rest; [exact I|exact K].
Qed.
Lemma delimiters items c rest : Forall (Forall chunk_ok) items -> tk c = CloseBracket ->
  find_delimiters (commas (map src items) ++ c :: rest) = map (fun i => length (src i)) (removelast items).
Proof.
  intros F K. unfold find_delimiters. destruct (removelast_closes (commas (map src items)) c rest K) as (x & E & C). rewrite E, (scan_items items x F C []), app_nil_r, rev_involutive. reflexivity.
Qed.
Lemma take_all items last x : take_items (map (@length tok) items) (commas (items ++ [last]) ++ x) = Ret (items, last ++ x).
Proof.
  induction items as [|i items IH]; [reflexivity|].
  assert (E : commas ((i :: items) ++ [last]) = i ++ comma :: commas (items ++ [last])) by (cbn [app commas]; destruct (items ++ [last]) eqn:X; [destruct items; discriminate|reflexivity]).
  rewrite E. cbn [map take_items]. rewrite <- app_assoc. cbn [app]. rewrite skipn_app, skipn_all, Nat.sub_diag, firstn_app, firstn_all, Nat.sub_diag. cbn [skipn app firstn].
  change (is_k Comma comma) with true. cbv iota. rewrite IH. rewrite app_nil_r. reflexivity.
Qed.
Lemma open_all i c rest : free [CloseBracket] i -> i <> [] -> at_k Backslash (last_token i) = false -> tk c = CloseBracket -> take_open (i ++ c :: rest) = Ret (i, c :: rest).
Proof.
  intros F N B K. induction i as [|t i IH]; [destruct (N eq_refl)|]. inversion F as [|? ? Nt F']; subst. destruct i as [|u i].
  - cbn [app take_open hd_error at_k]. rewrite (is_k_of _ _ K). unfold last_token in B. cbn in B. rewrite B. reflexivity.
  - assert (B' : at_k Backslash (last_token (u :: i)) = false).
    { unfold last_token in *. cbn [rev] in *. destruct (rev i ++ [u]) eqn:E; [destruct (rev i); discriminate|]. exact B. }
    specialize (IH F' ltac:(discriminate) B'). cbn [app take_open hd_error at_k] in *. inversion F' as [|? ? Nu _]; subst. rewrite (not_in_k _ CloseBracket u Nu) by (cbn; tauto). cbn [andb]. rewrite IH. reflexivity.
Qed.
Lemma chunk_src_free c : chunk_ok c -> free [CloseBracket] (chunk_src c).
Proof.
  destruct c as [t|b|b]; cbn [chunk_src chunk_ok].
  - intro N. constructor; [intro X; apply N; cbn in *; tauto|constructor].
  - intros [F _]. constructor; [cbn; intuition discriminate|]. apply free_app. split; [eapply free_sub; [|exact F]; intros k X; cbn in *; tauto|constructor; [cbn; intuition discriminate|constructor]].
  - intros [F _]. constructor; [cbn; intuition discriminate|]. apply free_app. split; [eapply free_sub; [|exact F]; intros k X; cbn in *; tauto|constructor; [cbn; intuition discriminate|constructor]].
Qed.
Lemma src_free cs : Forall chunk_ok cs -> free [CloseBracket] (src cs).
Proof. intro F. induction F as [|c cs O F IH]; [constructor|]. unfold src. cbn [flat_map]. apply free_app. split; [apply chunk_src_free; exact O|exact IH]. Qed.

Lemma split_ok full items c rest : items <> [] -> Forall (Forall chunk_ok) items -> tk c = CloseBracket -> (full = true -> rest = []) ->
  (full = false -> at_k Backslash (last_token (commas (map src items))) = false) ->
  split_items full (commas (map src items) ++ c :: rest) = Ret (map src items, c :: rest).
Proof.
  intros N F K FR FB. unfold split_items. rewrite (delimiters items c rest F K).
  destruct (exists_last N) as (its & l & ->). rewrite removelast_last. rewrite map_app in *. cbn [map] in *.
  rewrite <- map_map. rewrite (take_all (map src its) (src l) (c :: rest)).
  apply Forall_app in F. destruct F as [F Fl]. inversion Fl as [|? ? Ol _]; subst.
  assert (T : take_last full (src l ++ c :: rest) = Ret (src l, c :: rest)).
  { unfold take_last. destruct (src l ++ c :: rest) as [|y m] eqn:E; [destruct (src l); discriminate|]. rewrite <- E. destruct full.
    - rewrite (FR eq_refl) in *. rewrite removelast_last. rewrite app_length. cbn [length]. replace (length (src l) + 1 - 1) with (length (src l)) by lia. rewrite skipn_app, skipn_all, Nat.sub_diag. reflexivity.
    - destruct (src l) as [|t s] eqn:S1.
      + cbn [app current_is hd_error at_k]. unfold current_is. cbn [hd_error at_k]. rewrite (is_k_of _ _ K). reflexivity.
      + assert (FS : free [CloseBracket] (t :: s)) by (rewrite <- S1; apply src_free; exact Ol).
        replace (current_is CloseBracket ((t :: s) ++ c :: rest)) with false by (symmetry; unfold current_is; cbn [app hd_error at_k]; inversion FS as [|? ? Nt _]; subst; apply (not_in_k _ _ _ Nt); cbn; tauto).
        apply open_all; [exact FS|discriminate| |exact K]. specialize (FB eq_refl). revert FB. clear.
        intro FB. assert (X : exists p, commas (map src its ++ [t :: s]) = p ++ (t :: s)).
        { clear FB. induction (map src its) as [|i its' IH]; [exists []; reflexivity|]. destruct IH as (p & E). cbn [app commas].
          destruct (its' ++ [t :: s]) as [|y m] eqn:Z; [destruct its'; discriminate|]. exists (i ++ comma :: p). rewrite E, <- app_assoc. reflexivity. }
        destruct X as (p & E). rewrite E in FB. unfold last_token in *. rewrite rev_app_distr in FB. cbn [rev] in *. destruct (rev s ++ [t]) eqn:Z; [destruct (rev s); discriminate|]. exact FB. }
  rewrite T. reflexivity.
Qed.

(** ** Items *)
Lemma non_attr_free l : free [AttrRef] l -> non_attr l = l.
Proof. intro F. unfold non_attr. induction F as [|t l N F IH]; [reflexivity|]. cbn [filter]. rewrite (not_in_k _ AttrRef t N) by (cbn; tauto). cbn [negb]. f_equal. exact IH. Qed.
Lemma trim_front_pad w l : Forall (fun t => tk t = Whitespace) w -> trim_front (w ++ l) = trim_front l.
Proof. intro F. induction F as [|t w K F IH]; [reflexivity|]. cbn [app trim_front]. rewrite (is_k_of _ _ K). exact IH. Qed.
Lemma trim_front_id l : at_k Whitespace (hd_error l) = false -> trim_front l = l.
Proof. destruct l as [|t l]; [reflexivity|]. cbn [hd_error at_k trim_front]. intros ->. reflexivity. Qed.
Lemma trim_pad w l w' : Forall (fun t => tk t = Whitespace) w -> Forall (fun t => tk t = Whitespace) w' -> ends_ok l -> trim (w ++ l ++ w') = l.
Proof.
  intros F F' [A B]. unfold trim. rewrite trim_front_pad by exact F. destruct l as [|t l].
  - cbn [app]. replace (trim_front w') with (@nil tok); [reflexivity|]. symmetry. rewrite <- (app_nil_r w'), trim_front_pad by exact F'. reflexivity.
  - rewrite (trim_front_id ((t :: l) ++ w') A). rewrite rev_app_distr, trim_front_pad by (apply Forall_rev; exact F'). rewrite trim_front_id by exact B. apply rev_involutive.
Qed.
Lemma trim_id l : ends_ok l -> trim l = l.
Proof. intro E. rewrite <- (trim_pad [] l [] (Forall_nil _) (Forall_nil _) E) at 2. cbn [app]. rewrite app_nil_r. reflexivity. Qed.

Lemma unquote_plain l : free [DoubleQuote; SingleQuote] l -> unquote l = l.
Proof.
  intro F. unfold unquote. destruct l as [|t l]; [reflexivity|]. inversion F as [|? ? N _]; subst. cbn [hd_error at_k]. rewrite !(not_in_k _ _ t N) by (cbn; tauto). cbn [andb orb]. rewrite andb_false_r. reflexivity.
Qed.
Lemma unquote_chunk q : match q with Plain _ => False | _ => True end -> unquote (chunk_src q) = body q.
Proof.
  destruct q as [t|b|b]; [tauto| |]; intros _; unfold unquote, last_token; cbn [chunk_src hd_error at_k]; cbn [rev]; rewrite rev_app_distr; cbn [rev app hd_error at_k length]; rewrite app_length; cbn [length];
  replace (1 <? S (length b + 1)) with true by (symmetry; apply Nat.ltb_lt; lia); cbn; rewrite ?removelast_last; reflexivity.
Qed.
Lemma chunk_len q : match q with Plain _ => False | _ => True end -> length (body q) <> length (chunk_src q).
Proof. destruct q; [tauto| |]; intros _; cbn; rewrite app_length; cbn; lia. Qed.

Ltac nk N := rewrite ?(not_in_k _ _ _ N) by (cbn; tauto).
(** a token of none of the telling kinds *)
Lemma decide_skip sh tot i saw t r : ~ In (tk t) [Dots; Hash; Percent; DoubleQuote; SingleQuote; Whitespace; EqualSigns] -> decide sh tot i saw (t :: r) = decide sh tot (S i) saw r.
Proof.
  intro N. cbn [decide]. replace (symbol t) with false by (symmetry; unfold symbol; apply andb_false_intro1; apply one_of_not; intro X; apply N; cbn in *; tauto).
  replace (one_of [DoubleQuote; SingleQuote] t) with false by (symmetry; apply one_of_not; intro X; apply N; cbn in *; tauto). nk N. reflexivity.
Qed.
Lemma decide_plain sh tot l : free [DoubleQuote; SingleQuote; EqualSigns; Dots; Hash; Percent] l -> forall i saw, exists h, decide sh tot i saw l = (h, saw) /\ (h = None \/ h = Some HPositional).
Proof.
  intro F. induction F as [|t l N F IH]; intros i saw; [exists None; split; [reflexivity|tauto]|]. cbn [decide].
  replace (symbol t) with false by (symmetry; unfold symbol; apply andb_false_intro1; apply one_of_not; intro X; apply N; cbn in *; tauto).
  replace (one_of [DoubleQuote; SingleQuote] t) with false by (symmetry; apply one_of_not; intro X; apply N; cbn in *; tauto).
  destruct (is_k Whitespace t && negb (is_equals (hd_error l))) eqn:W; [exists (Some HPositional); split; [reflexivity|tauto]|]. nk N. cbn [andb]. apply IH.
Qed.
(** style#id.role: no white space, no quotes *)
Lemma decide_marks sh tot l : free [DoubleQuote; SingleQuote; EqualSigns; Whitespace] l -> forall i saw, 0 < i -> exists s, decide sh tot i saw l = (None, s) /\ (saw = true -> s = true) /\ (existsb symbol l = true -> s = true).
Proof.
  intro F. induction F as [|t l N F IH]; intros i saw P; [exists saw; split; [reflexivity|split; [auto|discriminate]]|]. cbn [decide existsb].
  replace (one_of [DoubleQuote; SingleQuote] t) with false by (symmetry; apply one_of_not; intro X; apply N; cbn in *; tauto). nk N. cbn [andb].
  destruct (symbol t) eqn:SY.
  - replace (i =? 0) with false by (symmetry; apply Nat.eqb_neq; lia). rewrite andb_false_r. cbn [andb].
    assert (W : negb (at_k Whitespace (hd_error l)) = true) by (destruct F as [|u m Nu _]; [reflexivity|]; cbn [hd_error at_k]; nk Nu; reflexivity). rewrite W.
    destruct (IH (S i) true) as (s & E & A & B); [lia|]. exists s. split; [exact E|]. split; intros _; apply A; reflexivity.
  - destruct (IH (S i) saw) as (s & E & A & B); [lia|]. exists s. split; [exact E|]. split; [exact A|]. cbn [orb]. exact B.
Qed.

Lemma subgroups_words sep l cur : In sep [Comma; Whitespace] -> cur = [] -> subgroups sep cur (between (match sep with Comma => comma | _ => sp end) l) = map (fun x => [wd x]) l.
Proof.
  intros I ->. destruct I as [<-|[<-|[]]]; induction l as [|x [|y l] IH]; try reflexivity.
  - cbn [between subgroups]. change (is_k Comma (wd x)) with false. change (is_k AttrRef (wd x)) with false. change (is_k Comma comma) with true. cbn [app]. cbv iota.
    change (trim [wd x]) with [wd x]. cbn [map]. cbn [app]. f_equal. exact IH.
  - cbn [between subgroups]. change (is_k Whitespace (wd x)) with false. change (is_k AttrRef (wd x)) with false. change (is_k Whitespace sp) with true. cbn [app]. cbv iota.
    change (trim [wd x]) with [wd x]. cbn [map]. cbn [app]. f_equal. exact IH.
Qed.

(** the shorthand marks *)
Definition mark_ok (m : mark) : Prop := mark_text m <> [] /\ plain (mark_text m) /\ free [EqualSigns; Dots; Hash; Percent; Whitespace] (mark_text m).
Definition add_mark (a : attrs) (m : mark) : attrs := match m with MId x => set_id (text_of x) a | MRole x => add_roles [text_of x] a | MOption x => add_options [text_of x] a end.
Definition ids (ms : list mark) : list bytes := flat_map (fun m => match m with MId x => [text_of x] | _ => [] end) ms.
Lemma until_stop x r : free [Dots; Hash; Percent] x -> match r with [] => True | t :: _ => existsb (fun s => satisfies s t) stop = true end -> until_one_of stop (x ++ r) = (text_of x, r).
Proof.
  intros F R. induction F as [|t x N F IH].
  - cbn [app]. destruct r as [|t r]; [reflexivity|]. cbn [until_one_of]. rewrite R. reflexivity.
  - cbn [app until_one_of]. replace (existsb (fun s => satisfies s t) stop) with false; [rewrite IH; reflexivity|].
    symmetry. cbn [stop existsb satisfies]. nk N. reflexivity.
Qed.
Lemma mark_stop m ms : match mark_src m ++ ms with [] => True | t :: _ => existsb (fun s => satisfies s t) stop = true end.
Proof. destruct m; reflexivity. Qed.
Lemma marks_stop ms : match flat_map mark_src ms with [] => True | t :: _ => existsb (fun s => satisfies s t) stop = true end.
Proof. destruct ms as [|m ms]; [exact I|apply mark_stop]. Qed.
Lemma shorthands_ok ms : Forall mark_ok ms -> forall f a, length (flat_map mark_src ms) < f -> length (match aid a with Some x => [x] | None => [] end ++ ids ms) <= 1 ->
  shorthands f (flat_map mark_src ms) a = Ret (fold_left add_mark ms a).
Proof.
  intro F. induction F as [|m ms (NE & PL & FR) F IH]; intros f a L U; [destruct f; [lia|reflexivity]|].
  destruct f as [|f]; [lia|]. cbn [flat_map] in *. rewrite app_length in L.
  assert (FD : free [Dots; Hash; Percent] (mark_text m)) by (eapply free_sub; [|exact FR]; intros k X; cbn in *; tauto).
  pose proof (until_stop (mark_text m) (flat_map mark_src ms) FD (marks_stop ms)) as US.
  destruct m as [x|x|x]; cbn [mark_src mark_text] in *; cbn [app shorthands]; (destruct (x ++ flat_map mark_src ms) as [|z zs] eqn:Z; [destruct x; [destruct (NE eq_refl)|discriminate]|]); rewrite US; cbn [length] in L.
  - change (is_k Dots (Tok Hash $"#") && len_is 1 (Tok Hash $"#")) with false. change (is_k Hash (Tok Hash $"#")) with true. cbv iota.
    destruct (aid a) eqn:A; [cbn [ids flat_map app length] in U; lia|]. rewrite IH; [reflexivity|lia|]. cbn [aid set_id]. exact U.
  - change (is_k Dots (Tok Dots $".") && len_is 1 (Tok Dots $".")) with true. cbv iota. rewrite IH; [reflexivity|lia|exact U].
  - change (is_k Dots (Tok Percent $"%") && len_is 1 (Tok Percent $"%")) with false. change (is_k Hash (Tok Percent $"%")) with false. change (is_k Percent (Tok Percent $"%")) with true. cbv iota. rewrite IH; [reflexivity|lia|exact U].
Qed.
Lemma before_ok st ms r : plain st -> free [Dots; Hash; Percent] st -> before_symbol (st ++ mark_src ms ++ r) = Ret (st, mark_src ms ++ r).
Proof.
  intros P F. induction st as [|t st IH].
  - destruct ms; reflexivity.
  - inversion P as [|? ? Np P']; inversion F as [|? ? Nf F']; subst. cbn [app before_symbol].
    replace (one_of [Hash; Percent; Dots] t) with false by (symmetry; apply one_of_not; intro X; apply Nf; cbn in *; tauto). rewrite IH by assumption. nk Np. reflexivity.
Qed.

(** ** Entries *)
Definition plus (a : attrs) (e : entry) : attrs :=
  Attrs (positional a ++ says_positional e) (named a ++ says_named e) (options a ++ says_options e) (roles a ++ says_roles e) (match aid a with Some x => Some x | None => hd_error (says_id e) end) (errors a).
Definition id_room (a : attrs) (e : entry) : Prop := length (match aid a with Some x => [x] | None => [] end ++ says_id e) <= 1.
Lemma marks_plus ms : forall a, length (match aid a with Some x => [x] | None => [] end ++ ids ms) <= 1 -> fold_left add_mark ms a = plus a (EShort [] ms).
Proof.
  induction ms as [|m ms IH]; intros a U.
  - destruct a as [p n o r i e]. unfold plus. cbn. rewrite !app_nil_r. destruct i; reflexivity.
  - cbn [fold_left]. rewrite IH.
    + destruct a as [p n o r i e]. destruct m as [x|x|x]; unfold plus; cbn; rewrite <- ?app_assoc; cbn [app]; f_equal.
      destruct i; [cbn in U; lia|reflexivity].
    + destruct m as [x|x|x]; cbn [add_mark]; [|exact U|exact U]. cbn [ids flat_map] in U. cbn [aid set_id]. destruct (aid a); [cbn in U; lia|]. exact U.
Qed.

Lemma plus_pos a v : plus a (EPos v) = push_positional (Some v) a.
Proof. destruct a as [p n o r i e]. unfold plus, push_positional. cbn. rewrite !app_nil_r. destruct i; reflexivity. Qed.

Lemma entry_ends sh e : entry_ok sh e -> ends_ok (entry_src e).
Proof.
  destruct e as [|v|q|n v|n q|rs|os|x|st ms]; cbn [entry_ok entry_src].
  - intros _. split; reflexivity.
  - intros (_ & _ & _ & E). exact E.
  - intros (_ & _ & Q). destruct q as [t|b|b]; [destruct Q| |]; (split; [reflexivity|unfold last_token; cbn [chunk_src]; idtac]); cbn [rev]; rewrite rev_app_distr; reflexivity.
  - intros (_ & _ & A & B). split; [reflexivity|]. destruct v as [|y v]; [reflexivity|]. unfold last_token in *. cbn [rev] in *. rewrite <- !app_assoc. destruct (rev v); exact B.
  - intros (_ & _ & _ & Q). destruct q as [t|b|b]; [destruct Q| |]; (split; [reflexivity|]); unfold last_token; cbn [chunk_src rev]; rewrite rev_app_distr; reflexivity.
  - intros _. split; [reflexivity|]. unfold last_token. cbn [rev]. rewrite rev_app_distr. reflexivity.
  - intros _. split; [reflexivity|]. unfold last_token. cbn [rev]. rewrite rev_app_distr. reflexivity.
  - intros _. split; reflexivity.
  - intros (_ & _ & Fs & NM & FM). assert (W : free [Whitespace] (st ++ flat_map mark_src ms)).
    { apply free_app. split; [eapply free_sub; [|exact Fs]; intros k X; cbn in *; tauto|]. clear NM. induction FM as [|m ms (_ & _ & Fm) FM IH]; [constructor|]. cbn [flat_map]. apply free_app. split; [|exact IH].
      assert (Wm : free [Whitespace] (mark_text m)) by (eapply free_sub; [|exact Fm]; intros k X; cbn in *; tauto). destruct m; (constructor; [cbn; intuition discriminate|exact Wm]). }
    split.
    + destruct (st ++ flat_map mark_src ms) as [|t l]; [reflexivity|]. inversion W as [|? ? N _]; subst. cbn [hd_error at_k]. nk N. reflexivity.
    + unfold last_token. apply Forall_rev in W. destruct (rev (st ++ flat_map mark_src ms)) as [|t l]; [reflexivity|]. inversion W as [|? ? N _]; subst. cbn [hd_error at_k]. nk N. reflexivity.
Qed.

Lemma decide_key sh tot n v : decide sh tot 0 false (wd n :: equals :: v) = (Some HKeyValue, false).
Proof. rewrite decide_skip by (cbn; intuition discriminate). reflexivity. Qed.
Lemma key_ir sh n v : item_ir sh (wd n :: equals :: v) = key_value (wd n :: equals :: v).
Proof. unfold item_ir. rewrite decide_key. reflexivity. Qed.
Lemma key_plain n v : at_k Whitespace (hd_error v) = false -> key_value (wd n :: equals :: v) =
  Ret (if bytes_eqb n $"options" || bytes_eqb n $"opts" then IOptions (subgroups Comma [] (unquote v)) else if bytes_eqb n $"role" then IRoles (subgroups Whitespace [] (unquote v))
       else if bytes_eqb n $"id" then IId (unquote v) else INamed n (unquote v)).
Proof. intro W. cbn [key_value key_rest]. change (is_k EqualSigns equals) with true. cbv iota. cbn [tx wd]. rewrite app_nil_r, W. reflexivity. Qed.
Lemma name_cases (T : Type) n (a b c d : T) : name_ok n -> (if bytes_eqb n $"options" || bytes_eqb n $"opts" then a else if bytes_eqb n $"role" then b else if bytes_eqb n $"id" then c else d) = d.
Proof.
  intro N. assert (X : forall k, In k [$"options"; $"opts"; $"role"; $"id"] -> bytes_eqb n k = false).
  { intros k I. destruct (bytes_eqb n k) eqn:E; [|reflexivity]. apply bytes_eqb_eq in E. subst. destruct (N I). }
  rewrite !X by (cbn; tauto). reflexivity.
Qed.
Lemma unquote_dq b : unquote (dq :: b ++ [dq]) = b.
Proof. exact (unquote_chunk (InDouble b) I). Qed.

Lemma parse_entry sh e f a : entry_ok sh e -> id_room a e -> length (entry_src e) < f -> parse_attr f false sh (entry_src e) a = Ret (plus a e).
Proof.
  intros O U L. pose proof (entry_ends sh e O) as EN. destruct f as [|f]; [lia|]. cbn [parse_attr]. rewrite (trim_id _ EN).
  destruct e as [|v|q|n v|n q|rs|os|x|st ms]; cbn [entry_ok entry_src] in *.
  - destruct a as [p n o r i e]. unfold plus, push_positional. cbn. rewrite !app_nil_r. destruct i; reflexivity.
  - destruct O as (NE & PL & FR & _). destruct v as [|t v]; [destruct (NE eq_refl)|]. unfold item_ir.
    assert (FD : free [DoubleQuote; SingleQuote; EqualSigns; Dots; Hash; Percent] (t :: v)).
    { unfold plain, free in *. rewrite Forall_forall in *. intros y Y X. destruct X as [X|[X|X]]; [apply (PL y Y); cbn; tauto|apply (PL y Y); cbn; tauto|apply (FR y Y); exact X]. }
    destruct (decide_plain sh (length (t :: v)) (t :: v) FD 0 false) as (h & E & H). rewrite E, plus_pos.
    rewrite unquote_plain by (eapply free_sub; [|exact FD]; intros k X; cbn in *; tauto). destruct H as [-> | ->]; reflexivity.
  - destruct O as (CO & FA & Q). assert (I0 : item_ir sh (chunk_src q) = Ret (IPositional (body q) false)).
    { unfold item_ir. replace (decide sh (length (chunk_src q)) 0 false (chunk_src q)) with (Some HPositional, false) by (destruct q; [destruct Q| |]; reflexivity). rewrite (unquote_chunk q Q). reflexivity. }
    replace (plus a (EQuoted q)) with (push_positional (Some (body q)) a) by (destruct a as [p n o r i e]; unfold plus, push_positional; cbn; rewrite !app_nil_r; destruct i; reflexivity).
    destruct (chunk_src q) eqn:E; [destruct q; discriminate|]. rewrite I0. reflexivity.
  - destruct O as (NO & PL & W & _). rewrite key_ir, (key_plain _ _ W), (name_cases _ _ _ _ _ _ NO).
    rewrite unquote_plain by (eapply free_sub; [|exact PL]; intros k X; cbn in *; tauto). destruct a as [p n0 o r i e]; unfold plus, insert_named; cbn; rewrite !app_nil_r; destruct i; reflexivity.
  - destruct O as (NO & CO & FA & Q). rewrite key_ir, key_plain, (name_cases _ _ _ _ _ _ NO), (unquote_chunk q Q) by (destruct q; [destruct Q| |]; reflexivity).
    destruct a as [p n0 o r i e]; unfold plus, insert_named; cbn; rewrite !app_nil_r; destruct i; reflexivity.
  - rewrite key_ir, key_plain, unquote_dq by reflexivity. change (bytes_eqb $"role" $"options" || bytes_eqb $"role" $"opts") with false. change (bytes_eqb $"role" $"role") with true. cbv iota.
    pose proof (subgroups_words Whitespace rs [] (or_intror (or_introl eq_refl)) eq_refl) as G. cbv iota in G. rewrite G, map_map.
    assert (M : map (fun x => text_of [wd x]) rs = rs) by (rewrite <- (map_id rs) at 2; apply map_ext; intro; cbn; apply app_nil_r). rewrite M.
    destruct a as [p n0 o r i e]; unfold plus, add_roles; cbn; rewrite !app_nil_r; destruct i; reflexivity.
  - rewrite key_ir, key_plain, unquote_dq by reflexivity. change (bytes_eqb $"options" $"options" || bytes_eqb $"options" $"opts") with true. cbv iota.
    pose proof (subgroups_words Comma os [] (or_introl eq_refl) eq_refl) as G. cbv iota in G. rewrite G, map_map.
    assert (M : map (fun x => text_of [wd x]) os = os) by (rewrite <- (map_id os) at 2; apply map_ext; intro; cbn; apply app_nil_r). rewrite M.
    destruct a as [p n0 o r i e]; unfold plus, add_options; cbn; rewrite !app_nil_r; destruct i; reflexivity.
  - rewrite key_ir, key_plain by reflexivity. change (unquote [wd x]) with [wd x]. cbn [bytes_eqb orb].
    change (bytes_eqb $"id" $"options" || bytes_eqb $"id" $"opts") with false. change (bytes_eqb $"id" $"role") with false. change (bytes_eqb $"id" $"id") with true. cbv iota.
    unfold id_room in U. cbn [says_id] in U. destruct a as [p n0 o r i e]. destruct i; [cbn in U; lia|]. unfold plus, set_id. cbn. rewrite !app_nil_r. reflexivity.
  - destruct O as (-> & PL & FS & NM & FM). assert (FM' : Forall mark_ok ms) by (eapply Forall_impl; [|exact FM]; intros m (X & Y & Z); repeat split; assumption).
    assert (MF : free [DoubleQuote; SingleQuote; EqualSigns; Whitespace] (flat_map mark_src ms)).
    { clear -FM. induction FM as [|m ms (_ & P & Fm) FM IH]; [constructor|]. cbn [flat_map]. apply free_app. split; [|exact IH].
      assert (X : free [DoubleQuote; SingleQuote; EqualSigns; Whitespace] (mark_text m)).
      { unfold plain, free in *. rewrite Forall_forall in *. intros y Y K. destruct K as [K|[K|[K|[K|[]]]]]; [apply (P y Y); cbn; tauto|apply (P y Y); cbn; tauto|apply (Fm y Y); cbn; tauto|apply (Fm y Y); cbn; tauto]. }
      destruct m; (constructor; [cbn; intuition discriminate|exact X]). }
    assert (SH : forall g a0, id_room a0 (EShort [] ms) -> parse_attr (S g) false true (flat_map mark_src ms) a0 = Ret (plus a0 (EShort [] ms))).
    { intros g a0 U0. assert (EM : ends_ok (flat_map mark_src ms)) by (exact (entry_ends true (EShort [] ms) (conj eq_refl (conj (Forall_nil _) (conj (Forall_nil _) (conj NM FM)))))).
      cbn [parse_attr]. rewrite (trim_id _ EM). assert (I0 : item_ir true (flat_map mark_src ms) = Ret (IShorthand (flat_map mark_src ms))).
      { unfold item_ir. destruct ms as [|m ms0]; [destruct (NM eq_refl)|]. inversion FM as [|? ? (NEm & _) _]; subst. cbn [flat_map].
        assert (1 < length (mark_src m ++ flat_map mark_src ms0)) by (rewrite app_length; destruct m as [y|y|y]; (destruct y; [destruct (NEm eq_refl)|]); cbn; lia).
        destruct m as [y|y|y]; cbn [mark_src app decide] in *; (match goal with |- context [symbol ?t] => change (symbol t) with true end); cbn [andb Nat.eqb]; (match goal with |- context [1 <? ?n] => destruct (Nat.ltb_spec 1 n) end); try lia; reflexivity. }
      destruct (flat_map mark_src ms) as [|z zs] eqn:Z; [destruct ms as [|[?|?|?] ?]; [destruct (NM eq_refl)|discriminate|discriminate|discriminate]|]. rewrite I0, <- Z.
      rewrite (shorthands_ok ms FM' _ a0); [f_equal; apply marks_plus; exact U0|lia|exact U0]. }
    destruct st as [|t st].
    + cbn [app] in *. specialize (SH f a). rewrite <- (SH U). cbn [parse_attr]. rewrite (trim_id _ EN). reflexivity.
    + assert (I0 : item_ir true ((t :: st) ++ flat_map mark_src ms) = Ret (IPositional ((t :: st) ++ flat_map mark_src ms) true)).
      { unfold item_ir. cbn [app]. inversion PL as [|? ? Np PL']; inversion FS as [|? ? Nf FS']; subst.
        rewrite decide_skip by (intro X; cbn in X; destruct X as [X|[X|[X|[X|[X|[X|[X|[]]]]]]]]; try (apply Nf; cbn; tauto); apply Np; cbn; tauto).
        assert (SF : free [DoubleQuote; SingleQuote; EqualSigns; Whitespace] (st ++ flat_map mark_src ms)).
        { apply free_app. split; [|exact MF]. unfold plain, free in *. rewrite Forall_forall in *. intros y Y K. destruct K as [K|[K|[K|[K|[]]]]]; [apply (PL' y Y); cbn; tauto|apply (PL' y Y); cbn; tauto|apply (FS' y Y); cbn; tauto|apply (FS' y Y); cbn; tauto]. }
        destruct (decide_marks true (length (t :: st ++ flat_map mark_src ms)) _ SF 1 false) as (s & E & _ & B); [lia|]. rewrite E.
        rewrite B by (rewrite existsb_app; destruct ms as [|[?|?|?] ?]; [destruct (NM eq_refl)| | |]; cbn; apply orb_true_r).
        rewrite unquote_plain; [rewrite Nat.eqb_refl; reflexivity|]. constructor; [intro X; apply Np; cbn in *; tauto|]. eapply free_sub; [|exact SF]. intros k X; cbn in *; tauto. }
      cbn [app] in *. rewrite I0. cbn [andb]. change (t :: st ++ flat_map mark_src ms) with ((t :: st) ++ flat_map mark_src ms) in *. destruct ms as [|m ms0] eqn:EM; [destruct (NM eq_refl)|]. cbn [flat_map] in *. rewrite (before_ok (t :: st) m (flat_map mark_src ms0) PL) by (eapply free_sub; [|exact FS]; intros k X; cbn in *; tauto).
      cbn [app]. rewrite <- EM in *. rewrite app_length in L. cbn [length] in L. destruct f as [|g]; [lia|].
      replace (mark_src m ++ flat_map mark_src ms0) with (flat_map mark_src ms) in * by (rewrite EM; reflexivity).
      rewrite SH; [|exact U]. f_equal. destruct a as [p n o r i e]. unfold plus. cbn. rewrite !app_nil_r. reflexivity.
Qed.

Lemma src_plain l : src (map Plain l) = l.
Proof. unfold src. induction l; cbn; congruence. Qed.
Lemma src_app a c : src (a ++ c) = src a ++ src c.
Proof. apply flat_map_app. Qed.
Lemma plain_ok l : plain l -> Forall chunk_ok (map Plain l).
Proof. intro P. apply Forall_map. eapply Forall_impl; [|exact P]. intros t N X. apply N. cbn in *. tauto. Qed.
Lemma between_free ks s l : ~ In (tk s) ks -> ~ In Word ks -> free ks (between s l).
Proof. intros A W. induction l as [|x [|y l] IH]; [constructor|constructor; [exact W|constructor]|]. cbn [between] in *. constructor; [exact W|]. constructor; [exact A|]. exact IH. Qed.
Lemma count_free k l : free [k] l -> count k l = 0.
Proof. intro F. unfold count. induction F as [|t l N F IH]; [reflexivity|]. cbn [filter]. nk N. exact IH. Qed.
Lemma wd_ok n : chunk_ok (Plain (wd n)).
Proof. cbn. intuition discriminate. Qed.
Lemma eq_ok : chunk_ok (Plain equals).
Proof. cbn. intuition discriminate. Qed.
Lemma marks_plain ms : Forall mark_ok ms -> plain (flat_map mark_src ms).
Proof. intro F. induction F as [|m ms (_ & P & _) F IH]; [constructor|]. cbn [flat_map]. apply free_app. split; [|exact IH]. destruct m; (constructor; [cbn; intuition discriminate|exact P]). Qed.
Lemma short_marks sh st ms : entry_ok sh (EShort st ms) -> Forall mark_ok ms.
Proof. intros (_ & _ & _ & _ & F). eapply Forall_impl; [|exact F]. intros m (X & Y & Z). repeat split; assumption. Qed.

Lemma entry_chunks sh e : entry_ok sh e -> exists cs, src cs = entry_src e /\ Forall chunk_ok cs.
Proof.
  destruct e as [|v|q|n v|n q|rs|os|x|st ms]; intro O; cbn [entry_src].
  - exists []. split; [reflexivity|constructor].
  - destruct O as (_ & P & _). exists (map Plain v). split; [apply src_plain|apply plain_ok; exact P].
  - destruct O as (CO & _). exists [q]. split; [unfold src; cbn; apply app_nil_r|constructor; [exact CO|constructor]].
  - destruct O as (_ & P & _). exists (Plain (wd n) :: Plain equals :: map Plain v). split; [unfold src; cbn [flat_map chunk_src app]; fold (src (map Plain v)); rewrite src_plain; reflexivity|].
    constructor; [apply wd_ok|]. constructor; [apply eq_ok|]. apply plain_ok. exact P.
  - destruct O as (_ & CO & _). exists [Plain (wd n); Plain equals; q]. split; [unfold src; cbn [flat_map chunk_src app]; rewrite app_nil_r; reflexivity|].
    constructor; [apply wd_ok|]. constructor; [apply eq_ok|]. constructor; [exact CO|constructor].
  - exists [Plain (wd $"role"); Plain equals; InDouble (between sp rs)]. split; [unfold src; cbn [flat_map chunk_src app]; rewrite app_nil_r; reflexivity|].
    constructor; [apply wd_ok|]. constructor; [apply eq_ok|]. constructor; [|constructor]. split; [apply between_free; cbn; intuition discriminate|].
    rewrite count_free; [exists 0; reflexivity|]. apply between_free; cbn; intuition discriminate.
  - exists [Plain (wd $"options"); Plain equals; InDouble (between comma os)]. split; [unfold src; cbn [flat_map chunk_src app]; rewrite app_nil_r; reflexivity|].
    constructor; [apply wd_ok|]. constructor; [apply eq_ok|]. constructor; [|constructor]. split; [apply between_free; cbn; intuition discriminate|].
    rewrite count_free; [exists 0; reflexivity|]. apply between_free; cbn; intuition discriminate.
  - exists [Plain (wd $"id"); Plain equals; Plain (wd x)]. split; [reflexivity|]. repeat (constructor; [apply wd_ok || apply eq_ok|]). constructor.
  - pose proof (short_marks sh st ms O) as M. destruct O as (_ & P & _). exists (map Plain (st ++ flat_map mark_src ms)). split; [apply src_plain|]. apply plain_ok. apply free_app. split; [exact P|]. apply marks_plain. exact M.
Qed.
Lemma plain_no_ref l : plain l -> free [AttrRef] l.
Proof. apply free_sub. intros k X. cbn in *. tauto. Qed.
Lemma chunk_no_ref q : quoted q -> free [AttrRef] (chunk_src q).
Proof.
  intros (_ & F & Q). destruct q as [t|b|b]; [destruct Q| |]; cbn [chunk_src]; (constructor; [cbn; intuition discriminate|]; apply free_app; split; [exact F|constructor; [cbn; intuition discriminate|constructor]]).
Qed.
Lemma entry_no_ref sh e : entry_ok sh e -> free [AttrRef] (entry_src e).
Proof.
  assert (K : forall t, tk t <> AttrRef -> ~ In (tk t) [AttrRef]) by (intros t N [X|[]]; congruence).
  destruct e as [|v|q|n v|n q|rs|os|x|st ms]; intro O; cbn [entry_src].
  - constructor.
  - apply plain_no_ref, O.
  - apply chunk_no_ref, O.
  - constructor; [apply K; discriminate|]. constructor; [apply K; discriminate|]. apply plain_no_ref, O.
  - constructor; [apply K; discriminate|]. constructor; [apply K; discriminate|]. apply chunk_no_ref, O.
  - repeat (constructor; [apply K; discriminate|]). apply free_app. split; [apply between_free; cbn; intuition discriminate|]. constructor; [apply K; discriminate|constructor].
  - repeat (constructor; [apply K; discriminate|]). apply free_app. split; [apply between_free; cbn; intuition discriminate|]. constructor; [apply K; discriminate|constructor].
  - repeat (constructor; [apply K; discriminate|]). constructor.
  - apply plain_no_ref. apply free_app. split; [apply O|]. apply marks_plain. exact (short_marks sh st ms O).
Qed.
Lemma spaces_ok w : Forall (fun t => tk t = Whitespace) w -> plain w.
Proof. intro F. eapply Forall_impl; [|exact F]. intros t -> X. cbn in X. intuition discriminate. Qed.
Lemma padded_chunks sh p : padded_ok sh p -> exists cs, src cs = padded_src p /\ Forall chunk_ok cs.
Proof.
  intros (O & B & A). destruct (entry_chunks sh (what p) O) as (cs & E & F). exists (map Plain (before p) ++ cs ++ map Plain (after p)). split.
  - rewrite !src_app, !src_plain, E. reflexivity.
  - apply Forall_app. split; [apply plain_ok, spaces_ok; exact B|]. apply Forall_app. split; [exact F|apply plain_ok, spaces_ok; exact A].
Qed.

Lemma parse_item_ok sh p a : padded_ok sh p -> id_room a (what p) -> parse_item false sh (padded_src p) a = Ret (plus a (what p)).
Proof.
  intros (O & B & A) U. unfold parse_item. rewrite non_attr_free.
  - pose proof (entry_ends sh _ O) as EN. pose proof (trim_pad _ _ _ B A EN) as T. pose proof (trim_id _ EN) as T2.
    rewrite <- (parse_entry sh (what p) (S (length (padded_src p))) a O U); [|unfold padded_src; rewrite !app_length; lia].
    cbn [parse_attr]. unfold padded_src in *. rewrite T, T2. reflexivity.
  - unfold padded_src. rewrite !free_app. split; [apply plain_no_ref, spaces_ok; exact B|]. split; [apply (entry_no_ref sh _ O)|apply plain_no_ref, spaces_ok; exact A].
Qed.
Lemma parse_items_ok sh ps : Forall (padded_ok sh) ps -> forall a, length (match aid a with Some x => [x] | None => [] end ++ flat_map (fun p => says_id (what p)) ps) <= 1 ->
  parse_items false sh (map padded_src ps) a = Ret (fold_left (fun a p => plus a (what p)) ps a).
Proof.
  intro F. induction F as [|p ps O F IH]; intros a U; [reflexivity|]. cbn [map parse_items fold_left flat_map] in *.
  assert (R : id_room a (what p)) by (unfold id_room; rewrite !app_length in *; lia).
  rewrite (parse_item_ok sh p a O R). cbn [negb orb]. destruct ps as [|p2 ps]; [reflexivity|]. cbn [map] in *. rewrite IH; [reflexivity|].
  unfold plus at 1. cbn [aid]. clear -U. rewrite !app_length in *. destruct (aid a); cbn [length app] in *; [lia|]. destruct (says_id (what p)); cbn [hd_error length] in *; lia.
Qed.
Lemma fold_plus ps : forall a, fold_left (fun a p => plus a (what p)) ps a =
  Attrs (positional a ++ flat_map (fun p => says_positional (what p)) ps) (named a ++ flat_map (fun p => says_named (what p)) ps) (options a ++ flat_map (fun p => says_options (what p)) ps)
    (roles a ++ flat_map (fun p => says_roles (what p)) ps) (match aid a with Some x => Some x | None => hd_error (flat_map (fun p => says_id (what p)) ps) end) (errors a).
Proof.
  induction ps as [|p ps IH]; intro a; [destruct a as [x n o r i e]; cbn; rewrite !app_nil_r; destruct i; reflexivity|].
  cbn [fold_left flat_map]. rewrite IH. destruct a as [x n o r i e]. unfold plus. cbn [positional named options roles aid errors]. rewrite <- !app_assoc. f_equal.
  destruct i; [reflexivity|]. destruct (says_id (what p)); reflexivity.
Qed.

Lemma list_meaning full sh ps c rest : Forall (padded_ok sh) ps -> length (flat_map (fun p => says_id (what p)) ps) <= 1 -> commas (map padded_src ps) <> [] -> tk c = CloseBracket ->
  (full = true -> rest = []) -> (full = false -> at_k Backslash (last_token (commas (map padded_src ps))) = false) ->
  parse_attr_list full false sh (commas (map padded_src ps) ++ c :: rest) = Ret (meaning ps, rest).
Proof.
  intros F U NE K FR FB.
  assert (X : exists items, map src items = map padded_src ps /\ Forall (Forall chunk_ok) items).
  { clear -F. induction F as [|p ps O F IH]; [exists []; split; [reflexivity|constructor]|]. destruct IH as (its & E & G). destruct (padded_chunks sh p O) as (cs & E1 & G1). exists (cs :: its). cbn [map]. split; [congruence|]. constructor; assumption. }
  destruct X as (items & E & G).
  assert (NI : items <> []) by (intros ->; cbn in E; rewrite <- E in NE; exact (NE eq_refl)).
  pose proof (split_ok full items c rest NI G K FR) as S1. rewrite E in S1. specialize (S1 FB).
  assert (NC : match commas (map padded_src ps) ++ c :: rest with t :: _ => is_k CloseBracket t = false | [] => False end).
  { destruct (commas (map padded_src ps)) as [|t l] eqn:Z; [destruct (NE eq_refl)|]. cbn [app].
    assert (FC : free [CloseBracket] (commas (map src items))).
    { clear -G. induction G as [|i its O G IH]; [constructor|]. cbn [map commas]. destruct (map src its) eqn:M; [apply src_free; exact O|]. apply free_app. split; [apply src_free; exact O|]. constructor; [cbn; intuition discriminate|exact IH]. }
    rewrite E, Z in FC. inversion FC as [|? ? N _]; subst. nk N. reflexivity. }
  unfold parse_attr_list. destruct (commas (map padded_src ps) ++ c :: rest) as [|t l]; [destruct NC|]. rewrite NC, S1, (parse_items_ok sh ps F no_attrs U), fold_plus, (is_k_of _ _ K). reflexivity.
Qed.

(** ** No panics *)
Lemma trim_front_len l : length (trim_front l) <= length l.
Proof. induction l as [|t l IH]; [reflexivity|]. cbn [trim_front]. destruct (is_k Whitespace t); cbn [length] in *; lia. Qed.
Lemma trim_len l : length (trim l) <= length l.
Proof. unfold trim. rewrite rev_length. etransitivity; [apply trim_front_len|]. rewrite rev_length. apply trim_front_len. Qed.
Lemma removelast_len (l : list tok) : length (removelast l) <= length l.
Proof. destruct l as [|x l]; [reflexivity|]. destruct (@exists_last _ (x :: l) ltac:(discriminate)) as (m & y & ->). rewrite removelast_last, app_length. lia. Qed.
Lemma unquote_len l : length (unquote l) <= length l.
Proof. unfold unquote. destruct (_ && _); [|reflexivity]. etransitivity; [apply removelast_len|]. destruct l; cbn; lia. Qed.

Lemma key_rest_total l : existsb (is_k EqualSigns) l = true -> exists x m, key_rest l = Ret (x, m).
Proof. induction l as [|t l IH]; [discriminate|]. cbn [existsb key_rest]. destruct (is_k EqualSigns t); [eexists _, _; reflexivity|]. cbn [orb]. intro E. destruct (IH E) as (x & m & ->). eexists _, _. reflexivity. Qed.
Lemma key_value_total t l : existsb (is_k EqualSigns) l = true -> exists ir, key_value (t :: l) = Ret ir.
Proof. intro E. cbn [key_value]. destruct (key_rest_total l E) as (x & m & ->). eexists. reflexivity. Qed.
Lemma decide_facts sh tot l : forall i saw h s, decide sh tot i saw l = (h, s) -> (h = Some HKeyValue -> existsb (is_k EqualSigns) (match i with O => tl l | _ => l end) = true) /\
  (s = true -> saw = false -> existsb symbol l = true) /\ (h = Some HShorthand -> i = 0 /\ exists t r, l = t :: r /\ symbol t = true /\ 1 < tot).
Proof.
  induction l as [|t l IH]; intros i saw h s E.
  - cbn in E. injection E as <- <-. split; [discriminate|]. split; [congruence|discriminate].
  - cbn [decide] in E. destruct (symbol t) eqn:SY.
    + destruct (sh && (i =? 0) && (1 <? tot)) eqn:C.
      * injection E as <- <-. split; [discriminate|]. split; [intros; cbn [existsb]; rewrite SY; reflexivity|]. rewrite !andb_true_iff, Nat.ltb_lt, Nat.eqb_eq in C. intros _. split; [tauto|]. exists t, l. tauto.
      * apply IH in E. destruct E as (A & _ & S1). split; [intros H; specialize (A H); destruct i; cbn [tl]; [exact A|cbn [existsb]; rewrite A; apply orb_true_r]|].
        split; [intros; cbn [existsb]; rewrite SY; reflexivity|]. intro H. destruct (S1 H) as (X & _). discriminate X.
    + destruct (one_of [DoubleQuote; SingleQuote] t); [injection E as <- <-; split; [discriminate|split; [congruence|discriminate]]|].
      destruct (is_k Whitespace t && negb (is_equals (hd_error l))); [injection E as <- <-; split; [discriminate|split; [congruence|discriminate]]|].
      destruct (is_k EqualSigns t && (i =? 0)) eqn:E0; [injection E as <- <-; split; [discriminate|split; [congruence|discriminate]]|].
      destruct (is_k EqualSigns t && len_is 1 t) eqn:E1.
      * injection E as <- <-. split; [|split; [congruence|discriminate]]. intros _. apply andb_true_iff in E1. destruct E1 as [K _]. destruct i; [rewrite K in E0; discriminate|]. cbn [existsb]. rewrite K. reflexivity.
      * apply IH in E. destruct E as (A & B & S1). split; [intros H; specialize (A H); destruct i; cbn [tl]; [exact A|cbn [existsb]; rewrite A; apply orb_true_r]|].
        split; [intros H1 H2; cbn [existsb]; rewrite (B H1 H2); apply orb_true_r|]. intro H. destruct (S1 H) as (X & _). discriminate X.
Qed.
Lemma symbol_one_of t : symbol t = true -> one_of [Hash; Percent; Dots] t = true.
Proof. unfold symbol. rewrite andb_true_iff, !one_of_in. cbn. tauto. Qed.
Lemma before_total l : existsb symbol l = true -> exists x m, before_symbol l = Ret (x, m) /\ (x <> [] -> length m < length l).
Proof.
  induction l as [|t l IH]; [discriminate|]. cbn [existsb before_symbol]. destruct (one_of [Hash; Percent; Dots] t) eqn:O; [intros _; exists [], (t :: l); split; [reflexivity|tauto]|].
  destruct (symbol t) eqn:SY; [rewrite (symbol_one_of t SY) in O; discriminate|]. cbn [orb]. intro E. destruct (IH E) as (x & m & B & L). rewrite B.
  assert (Lm : length m <= length l).
  { clear -B. revert x m B. induction l as [|u l IH]; intros x m B; [discriminate|]. cbn [before_symbol] in B. destruct (one_of _ u); [injection B as <- <-; lia|]. destruct (before_symbol l) as [[y n]|]; [|discriminate]. injection B as <- <-. specialize (IH y n eq_refl). cbn [length]. lia. }
  eexists _, _. split; [reflexivity|]. intros _. cbn [length]. lia.
Qed.
Lemma until_facts specs l x m : until_one_of specs l = (x, m) -> length m <= length l /\ match m with [] => True | t :: _ => existsb (fun s => satisfies s t) specs = true end.
Proof.
  revert x m. induction l as [|t l IH]; intros x m E; [injection E as <- <-; cbn; auto|]. cbn [until_one_of] in E. destruct (existsb (fun s => satisfies s t) specs) eqn:S1.
  - injection E as <- <-. split; [reflexivity|exact S1].
  - destruct (until_one_of specs l) as [y n]. injection E as <- <-. destruct (IH y n eq_refl). split; [cbn [length]; lia|assumption].
Qed.
Lemma shorthands_total f l a : length l < f -> match l with [] => True | t :: _ => existsb (fun s => satisfies s t) stop = true end -> exists a', shorthands f l a = Ret a'.
Proof.
  revert l a. induction f as [|f IH]; intros l a L S1; [lia|]. destruct l as [|t [|u r]]; [eexists; reflexivity|eexists; reflexivity|].
  cbn [shorthands]. destruct (until_one_of stop (u :: r)) as [x m] eqn:U. apply until_facts in U. destruct U as [Lm Sm]. cbn [length] in *.
  assert (G : forall a0, exists a', shorthands f m a0 = Ret a') by (intro a0; apply IH; [lia|exact Sm]).
  cbn [stop existsb satisfies orb] in S1. destruct (is_k Dots t && len_is 1 t) eqn:D; [apply G|]. destruct (is_k Hash t) eqn:H; [destruct (aid a); [eexists; reflexivity|apply G]|].
  destruct (is_k Percent t) eqn:P; [apply G|discriminate].
Qed.
Lemma symbol_stop t : symbol t = true -> existsb (fun s => satisfies s t) stop = true.
Proof.
  unfold symbol. rewrite andb_true_iff, one_of_in. intros [I L]. cbn [stop existsb satisfies]. destruct I as [I|[I|[I|[]]]].
  - rewrite (is_k_of Dots t), L by congruence. cbn. rewrite !orb_true_r. reflexivity.
  - rewrite (is_k_of Hash t) by congruence. reflexivity.
  - rewrite (is_k_of Percent t) by congruence. cbn. rewrite !orb_true_r. reflexivity.
Qed.
Lemma parse_attr_total f : forall sh l a, length l < f -> exists a', parse_attr f false sh l a = Ret a'.
Proof.
  induction f as [|f IH]; intros sh l a L; [lia|]. cbn [parse_attr]. pose proof (trim_len l) as TL. destruct (trim l) as [|t r] eqn:T; [eexists; reflexivity|].
  unfold item_ir. destruct (decide sh (length (t :: r)) 0 false (t :: r)) as [h s] eqn:D. pose proof (decide_facts _ _ _ _ _ _ _ D) as (K & SY & SH).
  assert (POS : exists a', match (let u := unquote (t :: r) in Ret (IPositional u (s && (length u =? length (t :: r))))) with
     | Ret (IPositional ts w) => if w && sh then match before_symbol ts with Ret ([], _) => Ret (err InvalidList a) | Ret (p, m) => parse_attr f false true m (push_positional (Some p) a) | Panic => Panic end else Ret (push_positional (Some ts) a)
     | _ => Panic end = Ret a').
  { cbv zeta iota beta. destruct (s && (length (unquote (t :: r)) =? length (t :: r)) && sh) eqn:W; [|eexists; reflexivity]. rewrite !andb_true_iff, Nat.eqb_eq in W. destruct W as [[-> LE] _].
    assert (UQ : unquote (t :: r) = t :: r).
    { revert LE. unfold unquote. destruct (_ && _) eqn:C; [|reflexivity]. intro LE. exfalso. pose proof (removelast_len (tl (t :: r))). cbn [tl length] in *. lia. }
    rewrite UQ. destruct (before_total (t :: r) (SY eq_refl eq_refl)) as (x & m & B & Lm). rewrite B. destruct x as [|p x]; [eexists; reflexivity|]. apply IH. specialize (Lm ltac:(discriminate)). lia. }
  destruct h as [[| |]|].
  - destruct (SH eq_refl) as (_ & t' & r' & Q & S1 & _). injection Q as <- <-. apply shorthands_total; [lia|]. apply symbol_stop. exact S1.
  - exact POS.
  - clear POS. cbn [key_value]. destruct (key_rest_total r (K eq_refl)) as (x & m & ->). cbv zeta. destruct (_ || _); [eexists; reflexivity|]. destruct (bytes_eqb _ _); [eexists; reflexivity|].
    destruct (bytes_eqb _ _); [|eexists; reflexivity]. destruct (unquote _); [eexists; reflexivity|]. destruct (aid a); eexists; reflexivity.
  - exact POS.
Qed.
Lemma parse_items_total sh items : forall a, exists a', parse_items false sh items a = Ret a'.
Proof.
  induction items as [|i items IH]; intro a; [eexists; reflexivity|]. cbn [parse_items negb orb]. unfold parse_item. destruct (parse_attr_total (S (length (non_attr i))) sh (non_attr i) a) as (a' & E); [lia|]. rewrite E.
  destruct items; [eexists; reflexivity|]. apply IH.
Qed.

(** what has been scanned: whole items with their commas, then [n] tokens *)
Inductive scanned : list tok -> list nat -> nat -> Prop :=
| S_start l : scanned l [] (length l)
| S_item p ds n c l : scanned p ds n -> tk c = Comma -> scanned (p ++ c :: l) (n :: ds) (length l).
Lemma scanned_snoc p ds n t : scanned p ds n -> scanned (p ++ [t]) ds (S n).
Proof.
  intro H. inversion H; subst.
  - replace (S (length p)) with (length (p ++ [t])) by (rewrite app_length; cbn; lia). constructor.
  - rewrite <- app_assoc. cbn [app]. replace (S (length l)) with (length (l ++ [t])) by (rewrite app_length; cbn; lia). constructor; assumption.
Qed.
Lemma scanned_pop k p ds n : scanned p ds n -> forall ds' n', pop_to k ds n = (ds', n') -> scanned p ds' n'.
Proof.
  revert n p. induction ds as [|d ds IH]; intros n p H ds' n' E; [cbn in E; injection E as <- <-; exact H|]. cbn [pop_to] in E. destruct (k <? length (d :: ds)); [|injection E as <- <-; exact H].
  refine (IH _ _ _ _ _ E). clear E. inversion H as [|q ds0 n0 c l Q C]; subst. clear -Q. assert (X : forall x, scanned (q ++ x) ds (d + length x)).
  { intro x. induction x as [|t x IH] using rev_ind; [rewrite app_nil_r, Nat.add_0_r; exact Q|]. rewrite app_assoc, app_length. cbn [length]. replace (d + (length x + 1)) with (S (d + length x)) by lia. apply scanned_snoc. exact IH. }
  specialize (X (c :: l)). cbn [length] in X. replace (length l + d + 1) with (d + S (length l)) by lia. exact X.
Qed.
Lemma scan_scanned l : forall p ds n dbl sgl, scanned p ds n -> exists p' r n', p ++ l = p' ++ r /\ scanned p' (scan_delims l ds n dbl sgl) n' /\ (free [CloseBracket] p -> free [CloseBracket] p').
Proof.
  induction l as [|t l IH]; intros p ds n dbl sgl H; [exists p, [], n; auto|]. cbn [scan_delims].
  assert (STOP : is_k CloseBracket t = false -> forall p' r, (p ++ [t]) ++ l = p' ++ r -> (free [CloseBracket] (p ++ [t]) -> free [CloseBracket] p') -> p ++ t :: l = p' ++ r /\ (free [CloseBracket] p -> free [CloseBracket] p')).
  { intros NC p' r E F. rewrite <- app_assoc in E. split; [exact E|]. intro Fp. apply F. apply free_app. split; [exact Fp|]. constructor; [intros [X|[]]; rewrite (is_k_of CloseBracket t) in NC by congruence; discriminate|constructor]. }
  assert (NQ : forall k, k <> CloseBracket -> is_k k t = true -> is_k CloseBracket t = false) by (intros k N X; apply is_k_eq in X; apply not_k; congruence).
  pose proof (scanned_snoc p ds n t H) as H1.
  destruct (is_k DoubleQuote t) eqn:DQ.
  { destruct dbl as [k|].
    - destruct (pop_to k ds (S n)) as [ds' n'] eqn:P. pose proof (scanned_pop _ _ _ _ H1 _ _ P) as H2. destruct (IH _ _ _ None sgl H2) as (p' & r & m & E & S1 & F). exists p', r, m. destruct (STOP (NQ DoubleQuote ltac:(discriminate) DQ) p' r E F). auto.
    - destruct (IH _ _ _ (Some (length ds)) sgl H1) as (p' & r & m & E & S1 & F). exists p', r, m. destruct (STOP (NQ DoubleQuote ltac:(discriminate) DQ) p' r E F). auto. }
  destruct (is_k SingleQuote t) eqn:SQ.
  { destruct sgl as [k|].
    - destruct (pop_to k ds (S n)) as [ds' n'] eqn:P. pose proof (scanned_pop _ _ _ _ H1 _ _ P) as H2. destruct (IH _ _ _ dbl None H2) as (p' & r & m & E & S1 & F). exists p', r, m. destruct (STOP (NQ SingleQuote ltac:(discriminate) SQ) p' r E F). auto.
    - destruct (IH _ _ _ dbl (Some (length ds)) H1) as (p' & r & m & E & S1 & F). exists p', r, m. destruct (STOP (NQ SingleQuote ltac:(discriminate) SQ) p' r E F). auto. }
  destruct (is_k Comma t) eqn:CO.
  { pose proof (S_item p ds n t [] H (proj1 (is_k_eq _ _) CO)) as H2. destruct (IH _ _ _ dbl sgl H2) as (p' & r & m & E & S1 & F). exists p', r, m. destruct (STOP (NQ Comma ltac:(discriminate) CO) p' r E F). auto. }
  destruct (is_k CloseBracket t) eqn:CB; [exists p, (t :: l), n; auto|].
  destruct (IH _ _ _ dbl sgl H1) as (p' & r & m & E & S1 & F). exists p', r, m. destruct (STOP eq_refl p' r E F). auto.
Qed.
Lemma take_scanned p ds n : scanned p ds n -> forall x, exists items rest, take_items (rev ds) (p ++ x) = Ret (items, rest ++ x) /\ length rest = n /\ exists q, p = q ++ rest.
Proof.
  assert (G : forall ds1 ds2 l, take_items (ds1 ++ ds2) l = match take_items ds1 l with Ret (i, r) => match take_items ds2 r with Ret (j, r) => Ret (i ++ j, r) | Panic => Panic end | Panic => Panic end).
  { clear. induction ds1 as [|d ds1 IH]; intros ds2 l; [cbn [app take_items]; destruct (take_items ds2 l) as [[? ?]|]; reflexivity|]. cbn [app take_items]. destruct (skipn d l) as [|t r]; [reflexivity|]. destruct (is_k Comma t); [|reflexivity].
    rewrite IH. destruct (take_items ds1 r) as [[i r']|]; [|reflexivity]. destruct (take_items ds2 r') as [[j r'']|]; reflexivity. }
  intro H. induction H as [l|p ds n c l H IH C]; intro x.
  - exists [], l. split; [reflexivity|]. split; [reflexivity|]. exists []. reflexivity.
  - rewrite <- app_assoc. cbn [app rev]. destruct (IH (c :: l ++ x)) as (items & rest & E & L & q & Q). rewrite G, E. cbn [take_items].
    rewrite skipn_app, <- L, skipn_all, Nat.sub_diag. cbn [app skipn]. rewrite (is_k_of _ _ C). eexists _, l. split; [reflexivity|]. split; [reflexivity|]. exists (p ++ [c]). rewrite <- app_assoc. reflexivity.
Qed.
Lemma take_delims line : line <> [] -> exists items pre rest, take_items (find_delimiters line) line = Ret (items, rest) /\ line = pre ++ rest /\ rest <> [] /\ free [CloseBracket] pre.
Proof.
  intro N. destruct (exists_last N) as (l & z & ->). unfold find_delimiters. rewrite removelast_last.
  destruct (scan_scanned l [] [] 0 None None (S_start [])) as (p & r & n & E & S1 & F). cbn [app] in E. subst l.
  destruct (take_scanned _ _ _ S1 (r ++ [z])) as (items & rest & T & _ & q & Q). rewrite <- app_assoc. exists items, q, (rest ++ r ++ [z]). split; [exact T|]. split; [rewrite Q, <- app_assoc; reflexivity|].
  split; [destruct rest; [destruct r; discriminate|discriminate]|]. specialize (F (Forall_nil _)). rewrite Q in F. apply free_app in F. apply F.
Qed.
Lemma take_open_total a x c l : tk c = CloseBracket -> tk x <> Backslash -> exists i c' r, take_open (a ++ x :: c :: l) = Ret (i, c' :: r) /\ tk c' = CloseBracket.
Proof.
  intros C X. induction a as [|y a IH].
  - cbn [app take_open hd_error at_k]. rewrite (is_k_of _ _ C), (not_k _ _ X). eexists _, _, _. split; [reflexivity|exact C].
  - cbn [app take_open]. destruct (at_k CloseBracket (hd_error (a ++ x :: c :: l)) && negb (is_k Backslash y)) eqn:E.
    + apply andb_true_iff in E. destruct E as [E _]. destruct (a ++ x :: c :: l) as [|c' r]; [discriminate|]. eexists _, _, _. split; [reflexivity|]. apply is_k_eq. exact E.
    + destruct IH as (i & c' & r & -> & C'). eexists _, _, _. split; [reflexivity|exact C'].
Qed.
(** the list ends: with the line, or at a closing bracket that is first or that no backslash precedes *)
Definition ends (full : bool) (line : list tok) : Prop :=
  if full then exists l c, line = l ++ [c] /\ tk c = CloseBracket
  else match line with c :: _ => tk c = CloseBracket | [] => False end \/ exists a x c l, line = a ++ x :: c :: l /\ tk x <> Backslash /\ tk c = CloseBracket.
Lemma split_total full line : ends full line -> exists items c rest, split_items full line = Ret (items, c :: rest) /\ tk c = CloseBracket.
Proof.
  intro E. assert (N : line <> []) by (intros ->; destruct full; [destruct E as (l & c & E & _); destruct l; discriminate|destruct E as [[]|(a & x & c & l & E & _)]; destruct a; discriminate]).
  destruct (take_delims line N) as (items & pre & rest & T & L & NR & F). unfold split_items. rewrite T. unfold take_last. destruct rest as [|t r]; [destruct (NR eq_refl)|]. destruct full.
  - destruct E as (l & c & E & C). rewrite E in L. destruct (@exists_last _ (t :: r) NR) as (m & z & M). rewrite M in *. rewrite app_assoc in L. apply app_inj_tail in L. destruct L as [_ <-].
    destruct (m ++ [c]) eqn:Z; [destruct m; discriminate|]. rewrite <- Z, removelast_last, app_length. cbn [length]. replace (length m + 1 - 1) with (length m) by lia. rewrite skipn_app, skipn_all, Nat.sub_diag. cbn [app skipn]. eexists _, _, _. split; [reflexivity|exact C].
  - destruct (current_is CloseBracket (t :: r)) eqn:CU; [eexists _, _, _; split; [reflexivity|apply is_k_eq; exact CU]|].
    destruct E as [E|(a & x & c & l & E & X & C)].
    + exfalso. destruct pre as [|y pre]; cbn [app] in L; subst line; [|inversion F as [|? ? Ny _]; subst; apply Ny; cbn; auto]. unfold current_is in CU. cbn [hd_error at_k] in CU. rewrite (is_k_of _ _ E) in CU. discriminate.
    + assert (SP : exists a', t :: r = a' ++ x :: c :: l).
      { rewrite E in L. clear -L F C CU. revert a L. induction pre as [|y pre IH]; intros a L; [exists a; symmetry; exact L|]. inversion F as [|? ? Ny F']; subst. destruct a as [|y' a]; cbn [app] in L.
        - injection L as <- L. destruct pre as [|z pre]; cbn [app] in L; [injection L as <- <-; unfold current_is in CU; cbn [hd_error at_k] in CU; rewrite (is_k_of _ _ C) in CU; discriminate|].
          injection L as <- L. inversion F' as [|? ? Nz _]; subst. exfalso. apply Nz. cbn. auto.
        - injection L as <- L. apply (IH F' a). exact L. }
      destruct SP as (a' & ->). destruct (take_open_total a' x c l C X) as (i & c' & r' & -> & C'). eexists _, _, _. split; [reflexivity|exact C'].
Qed.
Lemma list_total full sh line : ends full line -> exists a rest, parse_attr_list full false sh line = Ret (a, rest).
Proof.
  intro E. destruct (split_total full line E) as (items & c & rest & S1 & C). unfold parse_attr_list. destruct line as [|t r]; [unfold split_items, take_last in S1; discriminate S1|].
  destruct (is_k CloseBracket t); [eexists _, _; reflexivity|]. rewrite S1. destruct (parse_items_total sh items no_attrs) as (a & ->). rewrite (is_k_of _ _ C). eexists _, _. reflexivity.
Qed.
Lemma block_ends o line : is_block_attr_list (o :: line) = true -> ends true line.
Proof.
  unfold is_block_attr_list. rewrite !andb_true_iff. intros [[O E] _]. unfold current_is in O. cbn [hd_error at_k] in O. apply is_k_eq in O. unfold ends_with_nonescaped in E. cbn [rev] in E.
  destruct line as [|t l]; [cbn in E; apply is_k_eq in E; congruence|]. destruct (@exists_last _ (t :: l) ltac:(discriminate)) as (m & z & M). rewrite M in *. rewrite rev_app_distr in E. cbn [rev app] in E.
  exists m, z. split; [reflexivity|]. destruct (rev m ++ [o]); apply is_k_eq; [exact E|]. apply andb_true_iff in E. apply E.
Qed.
Lemma index_seq_spec specs l i : index_of_seq specs l = Some i -> starts_with_seq specs (skipn i l) = true /\ i < length l.
Proof.
  revert i. induction l as [|t l IH]; intros i E; [discriminate|]. cbn [index_of_seq] in E. destruct (starts_with_seq specs (t :: l)) eqn:S1; [injection E as <-; split; [exact S1|cbn; lia]|].
  destruct (index_of_seq specs l) as [j|]; [|discriminate]. injection E as <-. destruct (IH j eq_refl). split; [assumption|cbn; lia].
Qed.
Lemma index_kind_app k pre t l : free [k] pre -> tk t = k -> index_of_kind k (pre ++ t :: l) = Some (length pre).
Proof.
  intros F K. unfold index_of_kind. induction F as [|u pre N F IH]; cbn [app index_of_seq starts_with_seq satisfies]; [rewrite (is_k_of _ _ K); reflexivity|].
  nk N. cbn [andb]. rewrite IH. reflexivity.
Qed.
Lemma inline_ends xref target o line : free [OpenBracket] target -> tk o = OpenBracket -> continues_inline_macro xref (target ++ o :: line) = true -> ends false line.
Proof.
  intros F O. unfold continues_inline_macro. destruct (current_is Whitespace _); [discriminate|]. rewrite (index_kind_app _ _ _ _ F O). destruct (index_of_seq _ _) as [e|] eqn:I; [|discriminate].
  destruct (Nat.ltb_spec e (length target)); [discriminate|]. intros _. apply index_seq_spec in I. destruct I as [S1 L].
  rewrite skipn_app, skipn_all2 in S1 by lia. cbn [app] in S1. destruct (e - length target) as [|j] eqn:J.
  - cbn [skipn starts_with_seq satisfies] in S1. destruct line as [|c line]; [rewrite andb_false_r in S1; discriminate|]. rewrite !andb_true_iff in S1. left. apply is_k_eq. apply S1.
  - cbn [skipn] in S1. right. destruct (skipn j line) as [|x [|c l]] eqn:K; cbn [starts_with_seq satisfies] in S1; try discriminate; [rewrite andb_false_r in S1; discriminate|].
    rewrite !andb_true_iff, negb_true_iff in S1. exists (firstn j line), x, c, l. split; [rewrite <- K; symmetry; apply firstn_skipn|]. split; [apply is_k_neq; apply S1|apply is_k_eq; apply S1].
Qed.
(** items and commas make up the list *)
Lemma take_partition ds : forall line items rest, take_items ds line = Ret (items, rest) -> exists cs, length cs = length items /\ Forall (fun c => tk c = Comma) cs /\ line = flat_map (fun p => fst p ++ [snd p]) (combine items cs) ++ rest.
Proof.
  induction ds as [|d ds IH]; intros line items rest E; [injection E as <- <-; exists []; repeat split; constructor|]. cbn [take_items] in E.
  destruct (skipn d line) as [|t r] eqn:K; [discriminate|]. destruct (is_k Comma t) eqn:C; [|discriminate]. destruct (take_items ds r) as [[its r']|] eqn:T; [|discriminate]. injection E as <- <-.
  destruct (IH _ _ _ T) as (cs & L & F & P). exists (t :: cs). split; [cbn; congruence|]. split; [constructor; [apply is_k_eq; exact C|exact F]|]. cbn [combine flat_map fst snd]. rewrite <- !app_assoc, <- P. cbn [app]. rewrite <- K. symmetry. apply firstn_skipn.
Qed.
Lemma take_open_partition line i rest : take_open line = Ret (i, rest) -> line = i ++ rest.
Proof.
  revert i rest. induction line as [|t line IH]; intros i rest E; [discriminate|]. cbn [take_open] in E. destruct (_ && _); [injection E as <- <-; reflexivity|]. destruct (take_open line) as [[j r]|]; [|discriminate]. injection E as <- <-. cbn [app]. f_equal. apply IH. reflexivity.
Qed.
Lemma take_last_partition full line i rest : take_last full line = Ret (i, rest) -> line = i ++ rest.
Proof.
  unfold take_last. destruct line as [|t l]; [discriminate|]. destruct full.
  - intro E. assert (A : (removelast (t :: l), skipn (length (t :: l) - 1) (t :: l)) = (i, rest)) by congruence. clear E. destruct (@exists_last _ (t :: l) ltac:(discriminate)) as (m & z & M). rewrite M in *.
    rewrite removelast_last, app_length in A. cbn [length] in A. replace (length m + 1 - 1) with (length m) in A by lia. rewrite skipn_app, skipn_all, Nat.sub_diag in A. injection A as <- <-. reflexivity.
  - destruct (current_is CloseBracket (t :: l)); [intro E; injection E as <- <-; reflexivity|]. apply take_open_partition.
Qed.

(** ** Links *)
Lemma link_plain prev n nested b r : prev <> Backslash -> free [OpenBracket; CloseBracket; DoubleQuote; Backslash; EqualSigns; AttrRef] b ->
  exists prev', prev' <> Backslash /\ link_scan prev false nested n (b ++ r) = link_scan prev' false nested (n + length b) r.
Proof.
  intros P F. revert prev n P. induction F as [|t b N F IH]; intros prev n P; [exists prev; split; [exact P|cbn; f_equal; lia]|]. cbn [app link_scan].
  replace (kind_eqb prev Backslash) with false by (symmetry; destruct (kind_eqb_spec prev Backslash); congruence). cbn [andb].
  assert (X : forall k, In k [OpenBracket; CloseBracket; DoubleQuote; Backslash; EqualSigns; AttrRef] -> kind_eqb (tk t) k = false) by (intros k K; exact (not_in_k _ _ _ N K)).
  rewrite !X by (cbn; tauto). cbn [andb]. destruct (IH (tk t) (S n)) as (p & Pp & E); [intro Z; apply N; rewrite Z; cbn; tauto|]. exists p. split; [exact Pp|]. rewrite E. f_equal. cbn [length]. lia.
Qed.
Lemma link_bracketed x tail : bracketed x -> closes tail -> forall prev n, prev <> Backslash -> link_scan prev false false n (x ++ tail) = Some (n + length x).
Proof.
  intros B K. induction B as [|t l N B IH|o c b l O C F B IH]; intros prev n P.
  - cbn [app length]. rewrite Nat.add_0_r. destruct tail as [|c tail]; [reflexivity|]. cbn [closes] in K. cbn [link_scan]. replace (kind_eqb prev Backslash) with false by (symmetry; destruct (kind_eqb_spec prev Backslash); congruence). rewrite K. reflexivity.
  - destruct (link_plain prev n false [t] (l ++ tail) P) as (p & Pp & E); [constructor; [exact N|constructor]|]. cbn [app] in *. rewrite E, IH by exact Pp. f_equal. cbn [length]. lia.
  - cbn [app link_scan]. replace (kind_eqb prev Backslash) with false by (symmetry; destruct (kind_eqb_spec prev Backslash); congruence). rewrite O. cbn [andb kind_eqb kind_beq]. rewrite <- app_assoc. cbn [app].
    destruct (link_plain OpenBracket (S n) true b (c :: l ++ tail)) as (p & Pp & E); [discriminate|exact F|]. change (kind_eqb OpenBracket DoubleQuote) with false. change (kind_eqb OpenBracket OpenBracket) with true. cbv iota. rewrite E. cbn [link_scan].
    replace (kind_eqb p Backslash) with false by (symmetry; destruct (kind_eqb_spec p Backslash); congruence). rewrite C. cbn [andb].
    change (kind_eqb CloseBracket DoubleQuote) with false. change (kind_eqb CloseBracket OpenBracket) with false. change (kind_eqb CloseBracket CloseBracket) with true. cbv iota. rewrite IH by discriminate. f_equal. cbn [length]. rewrite app_length. cbn [length]. lia.
Qed.
Lemma bracketed_free x : bracketed x -> free [DoubleQuote; AttrRef] x.
Proof.
  intro B. induction B as [|t l N B IH|o c b l O C F B IH]; [constructor| |].
  - constructor; [intro X; apply N; cbn in *; tauto|exact IH].
  - constructor; [rewrite O; cbn; intuition discriminate|]. apply free_app. split; [eapply free_sub; [|exact F]; intros k X; cbn in *; tauto|]. constructor; [rewrite C; cbn; intuition discriminate|exact IH].
Qed.
Lemma link_text checked x c rest : x <> [] -> bracketed x -> at_k SingleQuote (hd_error x) = false -> tk c = CloseBracket ->
  link_attr_list checked (x ++ c :: rest) = Ret (push_positional (Some x) no_attrs, rest).
Proof.
  intros NE B SQ C. pose proof (bracketed_free x B) as F. destruct (removelast_closes x c rest C) as (y & E & K). unfold link_attr_list. rewrite E, (link_bracketed x y B K Eof 0) by discriminate. cbn [Nat.add].
  rewrite skipn_app, skipn_all, Nat.sub_diag, firstn_app, firstn_all, Nat.sub_diag. cbn [app skipn firstn]. rewrite app_nil_r, (is_k_of _ _ C). cbn [negb]. rewrite andb_false_r.
  rewrite non_attr_free by (eapply free_sub; [|exact F]; intros k X; cbn in *; tauto).
  assert (U : unquote x = x).
  { destruct x as [|t x]; [reflexivity|]. unfold unquote. inversion F as [|? ? N _]; subst. cbn [hd_error at_k] in *. rewrite SQ. nk N. cbn [andb orb]. rewrite andb_false_r. reflexivity. }
  rewrite U. destruct x as [|t x]; [destruct (NE eq_refl)|]. cbn [app]. assert (T : is_k CloseBracket t = false).
  { inversion B as [|? ? N _|? ? ? ? O]; subst; [nk N; reflexivity|apply not_k; congruence]. }
  rewrite T. reflexivity.
Qed.

Lemma link_quoted x q tail : free [DoubleQuote; Backslash; OpenBracket; CloseBracket; AttrRef] x -> tk q = DoubleQuote -> closes tail ->
  forall prev n, prev <> Backslash -> link_scan prev true false n (x ++ q :: tail) = Some (n + S (length x)).
Proof.
  intros F Q K. induction F as [|t l N F IH]; intros prev n P; cbn [app link_scan length].
  - replace (kind_eqb prev Backslash) with false by (symmetry; destruct (kind_eqb_spec prev Backslash); congruence). rewrite Q. cbn [kind_eqb kind_beq andb negb].
    destruct tail as [|c tail]; cbn [link_scan]; [f_equal; lia|]. cbn [closes] in K. rewrite K. cbn. f_equal. lia.
  - replace (kind_eqb prev Backslash) with false by (symmetry; destruct (kind_eqb_spec prev Backslash); congruence).
    pose proof (not_in_k _ DoubleQuote t N ltac:(cbn; tauto)) as N1. pose proof (not_in_k _ OpenBracket t N ltac:(cbn; tauto)) as N2. pose proof (not_in_k _ CloseBracket t N ltac:(cbn; tauto)) as N3.
    unfold is_k in N1, N2, N3. rewrite N1, N2, N3. cbn [andb negb]. rewrite andb_false_r. rewrite IH; [f_equal; lia|]. intro E. apply N. rewrite E. cbn. tauto.
Qed.
Lemma quoted_link_text checked q1 x q2 c rest : free [DoubleQuote; Backslash; OpenBracket; CloseBracket; AttrRef] x -> tk q1 = DoubleQuote -> tk q2 = DoubleQuote -> tk c = CloseBracket ->
  link_attr_list checked (q1 :: x ++ q2 :: c :: rest) = Ret (push_positional (Some x) no_attrs, rest).
Proof.
  intros F Q1 Q2 C. destruct (removelast_closes (q1 :: x ++ [q2]) c rest C) as (y & E & K). cbn [app] in E. rewrite <- !app_assoc in E. cbn [app] in E.
  unfold link_attr_list. rewrite E. cbn [link_scan]. rewrite Q1. cbn [kind_eqb kind_beq andb negb]. rewrite link_quoted by (try assumption; discriminate).
  replace (is_k CloseBracket q1) with false by (symmetry; apply not_k; congruence).
  assert (W : q1 :: x ++ q2 :: c :: rest = (q1 :: x ++ [q2]) ++ c :: rest) by (cbn [app]; rewrite <- app_assoc; reflexivity). rewrite W.
  assert (L : 1 + S (length x) = length (q1 :: x ++ [q2])) by (cbn [length]; rewrite app_length; cbn; lia). rewrite L.
  rewrite skipn_app, skipn_all, Nat.sub_diag, firstn_app, firstn_all, Nat.sub_diag. cbn [app skipn firstn]. rewrite app_nil_r, (is_k_of _ _ C). cbn [negb]. rewrite andb_false_r.
  rewrite non_attr_free by (constructor; [rewrite Q1; cbn; intuition discriminate|]; apply free_app; split; [eapply free_sub; [|exact F]; intros k X; cbn in *; tauto|repeat constructor; rewrite Q2; cbn; intuition discriminate]).
  assert (U : unquote (q1 :: x ++ [q2]) = x).
  { unfold unquote. assert (LT : last_token (q1 :: x ++ [q2]) = Some q2) by (unfold last_token; change (q1 :: x ++ [q2]) with ((q1 :: x) ++ [q2]); rewrite rev_app_distr; reflexivity).
    rewrite LT. cbn [hd_error at_k tl]. rewrite (is_k_of _ _ Q1), (is_k_of _ _ Q2), removelast_last. rewrite <- L. reflexivity. }
  change (q1 :: x ++ q2 :: []) with (q1 :: x ++ [q2]). rewrite U. reflexivity.
Qed.

(** ** Anchors *)
Lemma until_free specs x t r : Forall (fun u => existsb (fun s => satisfies s u) specs = false) x -> existsb (fun s => satisfies s t) specs = true -> until_one_of specs (x ++ t :: r) = (text_of x, t :: r).
Proof. intros F T. induction F as [|u x N F IH]; cbn [app until_one_of]; [rewrite T; reflexivity|]. rewrite N, IH. reflexivity. Qed.
Lemma until_close_free x c r : free [CloseBracket] x -> tk c = CloseBracket -> until_close (x ++ c :: r) = Ret (x, c :: r).
Proof. intros F C. induction F as [|t x N F IH]; cbn [app until_close]; [rewrite (is_k_of _ _ C); reflexivity|]. nk N. rewrite IH. reflexivity. Qed.
Lemma anchor_id entire id t r : id_tokens id -> In (tk t) [Comma; CloseBracket] -> parse_anchor entire (id ++ t :: r) =
  if is_k CloseBracket t then Ret (Some (text_of id, []), tl r)
  else let r := match r with w :: m => if is_k Whitespace w then m else r | [] => r end in
       if entire then match rev r with x :: y :: m => if is_k CloseBracket x && is_k CloseBracket y then Ret (Some (text_of id, rev m), []) else Panic | _ => Panic end
       else match until_close r with Ret (ref, _ :: y :: m) => if is_k CloseBracket y then Ret (Some (text_of id, ref), m) else Panic | _ => Panic end.
Proof.
  intros (F & NE & H) T. unfold parse_anchor. destruct id as [|u id]; [destruct H|]. cbn [app].
  replace (one_of _ u) with false by (symmetry; apply one_of_not; exact H). change (u :: id ++ t :: r) with ((u :: id) ++ t :: r). rewrite until_free.
  - destruct (text_of (u :: id)); [destruct (NE eq_refl)|]. reflexivity.
  - eapply Forall_impl; [|exact F]. intros v N. cbn [existsb satisfies]. nk N. reflexivity.
  - cbn [existsb satisfies]. destruct T as [T|[T|[]]]; [rewrite (is_k_of Comma t) by congruence; reflexivity|rewrite (is_k_of CloseBracket t) by congruence; rewrite orb_true_r; reflexivity].
Qed.
Lemma anchor_ref (entire : bool) id t w ref c1 c2 rest : id_tokens id -> tk t = Comma -> Forall (fun x => tk x = Whitespace) w -> length w <= 1 -> at_k Whitespace (hd_error ref) = false -> tk c1 = CloseBracket -> tk c2 = CloseBracket ->
  (if entire then rest = [] else free [CloseBracket] ref) -> parse_anchor entire (id ++ t :: w ++ ref ++ c1 :: c2 :: rest) = Ret (Some (text_of id, ref), rest).
Proof.
  intros I T W LW NW C1 C2 EN. rewrite anchor_id by (try exact I; rewrite T; cbn; tauto). rewrite (not_k CloseBracket t) by congruence. cbv zeta.
  replace (match w ++ ref ++ c1 :: c2 :: rest with w0 :: m => if is_k Whitespace w0 then m else w ++ ref ++ c1 :: c2 :: rest | [] => w ++ ref ++ c1 :: c2 :: rest end) with (ref ++ c1 :: c2 :: rest).
  - destruct entire.
    + subst rest. rewrite rev_app_distr. cbn [rev app]. rewrite (is_k_of _ _ C1), (is_k_of _ _ C2). cbn [andb]. rewrite rev_involutive. reflexivity.
    + rewrite (until_close_free ref c1 (c2 :: rest) EN C1), (is_k_of _ _ C2). reflexivity.
  - destruct w as [|x [|y w]]; [|inversion W; subst; cbn [app]; rewrite (is_k_of Whitespace x) by assumption; reflexivity|cbn in LW; lia]. cbn [app]. destruct ref as [|x ref]; cbn [app hd_error at_k] in *; [rewrite (not_k Whitespace c1) by congruence; reflexivity|rewrite NW; reflexivity].
Qed.
