(** Proofs for C83. *)
From Coq Require Import Lia.
From Verif Require Import Base AttrLookupModel VideoModel VideoSpec.
Import ListNotations.

Definition built (s : state) (b : bytes) (ps : list bytes) : Prop := out s = b ++ query ps /\ pushed s = negb (is_nil ps).

Lemma query_snoc ps x : query (ps ++ [x]) = query ps ++ (if negb (is_nil ps) then $"&amp;" else $"?") ++ x.
Proof.
  destruct ps as [|p r]; cbn [app query is_nil negb].
  - cbn [map concat]. rewrite app_nil_r. reflexivity.
  - rewrite map_app, concat_app. cbn [map concat]. rewrite app_nil_r. rewrite <- !app_assoc. reflexivity.
Qed.
Lemma built_param s b ps x : built s b ps -> built (param x s) b (ps ++ [concat x]).
Proof.
  intros [O P]. split.
  - unfold param, mark, push. cbn [out concat]. rewrite O, P, query_snoc, <- app_assoc. reflexivity.
  - cbn. destruct ps; reflexivity.
Qed.
Lemma built_iff s b ps (c : bool) x : built s b ps -> built (iff c (param x) s) b (ps ++ if c then [concat x] else []).
Proof. intros B. destruct c; cbn [iff]; [apply built_param, B|rewrite app_nil_r; exact B]. Qed.
Lemma built_when s b ps (o : option bytes) f : built s b ps ->
  built (when o (fun x => param (f x)) s) b (ps ++ match o with Some x => [concat (f x)] | None => [] end).
Proof. intros B. destruct o; cbn [when]; [apply built_param, B|rewrite app_nil_r; exact B]. Qed.
Lemma built_eq s b ps qs : built s b ps -> ps = qs -> built s b qs.
Proof. intros B <-. exact B. Qed.

Lemma split_once_app c u v : ~ In c u -> split_once c (u ++ c :: v) = Some (u, v).
Proof.
  induction u as [|x u IH]; intros N; cbn [app split_once].
  - rewrite Ascii.eqb_refl. reflexivity.
  - destruct (Ascii.eqb_spec x c) as [E|E]; [exfalso; apply N; left; exact E|]. rewrite IH; [reflexivity|]. intros H; apply N; right; exact H.
Qed.
Lemma split_once_none c u : ~ In c u -> split_once c u = None.
Proof.
  induction u as [|x u IH]; intros N; cbn [split_once]; [reflexivity|].
  destruct (Ascii.eqb_spec x c) as [E|E]; [exfalso; apply N; left; exact E|]. rewrite IH; [reflexivity|]. intros H; apply N; right; exact H.
Qed.
Lemma contains_in c u : In c u -> contains c u = true.
Proof. intros H. apply existsb_exists. exists c. split; [exact H|apply Ascii.eqb_refl]. Qed.
Lemma contains_out c u : ~ In c u -> contains c u = false.
Proof.
  intros N. destruct (contains c u) eqn:E; [|reflexivity]. exfalso. apply existsb_exists in E. destruct E as (x & I & E).
  apply Ascii.eqb_eq in E. subst. exact (N I).
Qed.
Lemma contains_two x y u : existsb (fun c => Ascii.eqb c x || Ascii.eqb c y) u = contains x u || contains y u.
Proof.
  unfold contains. induction u as [|c u IH]; [reflexivity|]. cbn [existsb]. rewrite IH, (Ascii.eqb_sym c x), (Ascii.eqb_sym c y).
  destruct (Ascii.eqb x c), (Ascii.eqb y c), (existsb (Ascii.eqb x) u), (existsb (Ascii.eqb y) u); reflexivity.
Qed.

Lemma others_out l s : out (others l s) = out s ++ concat (map (cons ","%char) l) /\ pushed (others l s) = pushed s.
Proof.
  revert s. induction l as [|x l IH]; intros s; cbn [others map concat]; [rewrite app_nil_r; split; reflexivity|].
  destruct (IH (push [$","; x] s)) as [O P]. rewrite O, P. split; [|reflexivity]. cbn [push out concat app]. rewrite app_nil_r, <- app_assoc. reflexivity.
Qed.
Lemma join_cons c p l : join_byte c (p :: l) = p ++ concat (map (cons c) l).
Proof.
  revert p. induction l as [|q l IH]; intros p; [cbn; rewrite app_nil_r; reflexivity|].
  change (join_byte c (p :: q :: l)) with (p ++ c :: join_byte c (q :: l)). rewrite IH. reflexivity.
Qed.

Lemma target_built a p t v ps s b : target_gives a p t v ps -> built s b [] ->
  built (push_target p t a s) (b ++ v) ps.
Proof.
  intros T [O P]. cbn [query] in O. rewrite app_nil_r in O. cbn in P.
  assert (Plain : built (push [v] s) (b ++ v) []) by (split; [cbn; rewrite O, !app_nil_r; reflexivity|exact P]).
  assert (H : forall o, built (when o (fun h => param [$"h="; h]) (push [v] s)) (b ++ v) (match o with Some x => [$"h" ++ $"=" ++ x] | None => [] end)).
  { intros o. eapply built_eq; [apply (built_when (push [v] s) (b ++ v) [] o (fun h => [$"h="; h])), Plain|]. destruct o; cbn; rewrite ?app_nil_r; reflexivity. }
  destruct T as [id l N|id h N|id r N M|id l N M E|id N M E|id N|id]; unfold push_target; cbn [slash_param is_youtube andb].
  - change ($"/" ++ l) with ("/"%char :: l). rewrite split_once_app by exact N. split; [|reflexivity].
    cbn [mark push out concat query map]. rewrite O, !app_nil_r, <- !app_assoc. reflexivity.
  - change ($"/" ++ h) with ("/"%char :: h). rewrite split_once_app by exact N. split; [|reflexivity].
    cbn [mark push out concat query map]. rewrite O, !app_nil_r, <- !app_assoc. reflexivity.
  - rewrite split_once_none by exact N. rewrite contains_in by (apply in_or_app; right; left; reflexivity).
    change ($"," ++ r) with (","%char :: r). rewrite split_byte_app by exact M. cbn [ids].
    destruct (others_out (split_byte ","%char r) (mark (push [id; $"?playlist="; id] s))) as [O2 P2].
    split; [|exact P2]. etransitivity; [exact O2|]. cbn [mark push out concat query map].
    destruct (split_byte_parts ","%char r) as [_ J].
    assert (K : concat (map (cons ","%char) (split_byte ","%char r)) = ","%char :: r).
    { pose proof (split_byte_nonnil ","%char r) as NN. destruct (split_byte ","%char r) as [|q l]; [congruence|]. rewrite <- J, join_cons. reflexivity. }
    rewrite K, O, !app_nil_r, <- !app_assoc. reflexivity.
  - rewrite split_once_none by exact N. rewrite contains_out by exact M. rewrite E. split; [|reflexivity].
    cbn [mark push out concat query map]. rewrite O, !app_nil_r, <- !app_assoc. reflexivity.
  - rewrite split_once_none by exact N. rewrite contains_out by exact M. rewrite E. apply H.
  - rewrite split_once_none by exact N. apply H.
  - apply H.
Qed.

Lemma simple_built l a s b ps : built s b ps ->
  built (simple_params l a s) b (ps ++ concat (map (fun k => from_option a (fst k) (snd k)) l)).
Proof.
  revert s ps. induction l as [|[o k] l IH]; intros s ps B; cbn [simple_params map concat fst snd]; [rewrite app_nil_r; exact B|].
  rewrite app_assoc. apply IH. eapply built_eq; [apply built_iff, B|]. unfold from_option. cbn [concat]. rewrite app_nil_r. reflexivity.
Qed.
Lemma when_attr a k n ke s b ps : ke = n ++ $"=" -> built s b ps -> built (when (named1 k a) (fun x => param [ke; x]) s) b (ps ++ from_attr a k n).
Proof.
  intros -> B. eapply built_eq; [apply (built_when s b ps (named1 k a) (fun x => [n ++ $"="; x])), B|]. unfold from_attr.
  destruct (named1 k a); [|reflexivity]. cbn [concat]. rewrite app_nil_r, <- app_assoc. reflexivity.
Qed.
Lemma iff_option a o k s b ps : built s b ps -> built (iff (has_option1 o a) (param [k]) s) b (ps ++ from_option a o k).
Proof. intros B. eapply built_eq; [apply built_iff, B|]. unfold from_option. cbn [concat]. rewrite app_nil_r. reflexivity. Qed.

Lemma more_built a t s b ps : built s b ps ->
  built (more_youtube_params a t s) b (ps ++ [$"rel=" ++ if has_option1 $"related" a then $"1" else $"0"]
      ++ from_attr a $"theme" $"theme" ++ from_attr a $"lang" $"hl" ++ from_attr a $"end" $"end"
      ++ from_option a $"nofullscreen" $"fs=0" ++ from_option a $"nocontrols" $"controls=0"
      ++ match named1 $"list" a with
         | Some x => [$"list=" ++ x]
         | None => if existsb (fun c => Ascii.eqb c "/"%char || Ascii.eqb c ","%char) t then [] else from_option a $"loop" ($"playlist=" ++ t)
         end).
Proof.
  intros B. unfold more_youtube_params. cbv zeta.
  apply (built_param _ _ _ [$"rel="; if has_option1 $"related" a then $"1" else $"0"]) in B.
  apply (when_attr a $"theme" $"theme" $"theme=" _ _ _ eq_refl) in B.
  apply (when_attr a $"lang" $"hl" $"hl=" _ _ _ eq_refl) in B.
  apply (when_attr a $"end" $"end" $"end=" _ _ _ eq_refl) in B.
  apply (iff_option a $"nofullscreen" $"fs=0") in B.
  apply (iff_option a $"nocontrols" $"controls=0") in B.
  cbn [concat] in B. rewrite app_nil_r in B.
  destruct (named1 $"list" a) as [x|].
  - apply (built_param _ _ _ [$"list="; x]) in B. eapply built_eq; [exact B|]. cbn [concat]. rewrite app_nil_r, <- !app_assoc. reflexivity.
  - rewrite contains_two. unfold from_option at 3.
    apply (built_iff _ _ _ (has_option1 $"loop" a && negb (contains "/"%char t || contains ","%char t)) [$"playlist="; t]) in B.
    eapply built_eq; [exact B|]. cbn [concat]. rewrite app_nil_r, <- !app_assoc.
    destruct (has_option1 $"loop" a), (contains "/"%char t || contains ","%char t); reflexivity.
Qed.

Lemma url_is a p t v ps : target_gives a p t v ps ->
  video_url p t a = address (service_of p) v (ps ++ settings_give a p t) (fragment_of a p).
Proof.
  intros T. unfold video_url, address. cbv zeta.
  assert (B : built (push [url_start p] (State [] false)) (service_of p) []) by (destruct p; split; reflexivity).
  apply (target_built a p t v ps _ _ T) in B. apply (simple_built (simple_param_pairs p) a) in B.
  revert B. generalize (simple_params (simple_param_pairs p) a (push_target p t a (push [url_start p] (State [] false)))). intros s B.
  destruct p; cbn [is_youtube iff fragment_of].
  - apply (more_built a t) in B. cbn [simple_param_pairs map concat fst snd] in B. rewrite app_nil_r in B.
    apply (when_attr a $"start" $"start" $"start=" _ _ _ eq_refl) in B. destruct B as [O _].
    replace (match named1 $"start" a with Some _ => [] | None => [] end) with (@nil ascii) by (destruct (named1 $"start" a); reflexivity).
    rewrite app_nil_r. unfold settings_give. rewrite <- !app_assoc in O. etransitivity; [|exact O]. destruct (named1 $"start" a); reflexivity.
  - cbn [simple_param_pairs map concat fst snd] in B. rewrite app_nil_r in B. destruct B as [O _]. rewrite <- !app_assoc in O. unfold settings_give.
    destruct (named1 $"start" a).
    + cbn [push out concat]. rewrite O, app_nil_r, <- !app_assoc. reflexivity.
    + rewrite O, app_nil_r. reflexivity.
  - cbn [simple_param_pairs map concat fst snd] in B. rewrite app_nil_r in B.
    apply (when_attr a $"start" $"time" $"time=" _ _ _ eq_refl) in B. destruct B as [O _].
    replace (match named1 $"start" a with Some _ => [] | None => [] end) with (@nil ascii) by (destruct (named1 $"start" a); reflexivity).
    rewrite app_nil_r. unfold settings_give. rewrite <- !app_assoc in O. etransitivity; [|exact O]. destruct (named1 $"start" a); reflexivity.
Qed.

(** every target gives a video *)
Lemma first_split c (t : bytes) : ~ In c t \/ exists u v, t = u ++ c :: v /\ ~ In c u.
Proof.
  induction t as [|x t IH]; [left; intros []|]. destruct (Ascii.eqb_spec x c) as [->|NE]; [right; exists [], t; split; [reflexivity|intros []]|].
  destruct IH as [N|(u & v & -> & N)]; [left; intros [H|H]; auto|]. right. exists (x :: u), v. split; [reflexivity|]. intros [H|H]; auto.
Qed.
Lemma target_total a p t : exists v ps, target_gives a p t v ps.
Proof.
  destruct p.
  - destruct (first_split "/"%char t) as [N|(u & v & -> & N)]; [|eexists _, _; apply (ListOfYouTube a u v N)].
    destruct (first_split ","%char t) as [M|(u & v & -> & M)]; [|eexists _, _; apply (VideosOfYouTube a u v); assumption].
    destruct (named1 $"playlist" a) as [l|] eqn:E; [eexists _, _; apply (PlaylistOfYouTube a t l); assumption|eexists _, _; apply (OneOfYouTube a t); assumption].
  - destruct (first_split "/"%char t) as [N|(u & v & -> & N)]; [eexists _, _; apply (OneOfVimeo a t N)|eexists _, _; apply (HashOfVimeo a u v N)].
  - eexists _, _. apply (OneOfWistia a t).
Qed.

(** question marks *)
Lemma count_none (c : ascii) l : ~ In c l -> count_occ ascii_dec l c = 0.
Proof. apply (proj1 (count_occ_not_In ascii_dec l c)). Qed.
Lemma count_rest l : Forall (fun x => ~ In "?"%char x) l -> count_occ ascii_dec (concat (map (fun x => $"&amp;" ++ x) l)) "?"%char = 0.
Proof. induction 1 as [|x l N _ IH]; [reflexivity|]. cbn [map concat]. rewrite !count_occ_app, IH, (count_none _ x N). reflexivity. Qed.
Lemma count_query l : Forall (fun x => ~ In "?"%char x) l -> count_occ ascii_dec (query l) "?"%char = match l with [] => 0 | _ => 1 end.
Proof. intros F. destruct F as [|x l N F]; [reflexivity|]. unfold query. rewrite !count_occ_app, (count_rest l F), (count_none _ x N). reflexivity. Qed.

Lemma dims_size a : push_dims a = concat (map attribute (size a $"width" 1 ++ size a $"height" 2)).
Proof.
  unfold push_dims, size. rewrite map_app, concat_app.
  f_equal; [destruct (named1 $"width" a), (str_positional1 1 a)|destruct (named1 $"height" a), (str_positional1 2 a)];
    cbn [map concat]; rewrite ?app_nil_r; reflexivity.
Qed.
Lemma service_frame a p t : service p t a = frame a p (video_url p t a).
Proof.
  unfold service, frame, html. rewrite dims_size. rewrite !map_app, !concat_app. generalize (video_url p t a). intros u.
  change ($"<iframe") with ($"<" ++ $"iframe"). rewrite <- !app_assoc.
  generalize (concat (map attribute (size a $"width" 1))), (concat (map attribute (size a $"height" 2))). intros w h. do 4 f_equal.
  destruct (has_option1 $"nofullscreen" a), p; cbn [negb map concat]; unfold attribute, quoted; cbn [fst snd]; rewrite ?app_nil_r, <- ?app_assoc; reflexivity.
Qed.
Lemma element_frame dir a p t : str_positional1 0 a = Some (name_of p) -> element dir t a = frame a p (video_url p t a).
Proof. intros E. unfold element. cbv zeta. rewrite E. rewrite <- service_frame. destruct p; reflexivity. Qed.

(** ** Files *)
Fixpoint mem (c : ascii) (l : bytes) : bool := match l with [] => false | x :: r => Ascii.eqb x c || mem c r end.
Lemma mem_in c l : mem c l = true <-> In c l.
Proof.
  induction l as [|x l IH]; cbn [mem In]; [split; [discriminate|intros []]|]. rewrite orb_true_iff, IH, Ascii.eqb_eq. reflexivity.
Qed.
Lemma letter_mem c : letter c = mem c $"abcdefghijklmnopqrstuvwxyzABCDEFGHIJKLMNOPQRSTUVWXYZ".
Proof. destruct c as [[] [] [] [] [] [] [] []]; vm_compute; reflexivity. Qed.
Lemma scheme_mem c : scheme_char c = letter c || mem c $"0123456789.+-".
Proof. destruct c as [[] [] [] [] [] [] [] []]; vm_compute; reflexivity. Qed.
Lemma letter_iff c : letter c = true <-> is_letter c.
Proof. rewrite letter_mem. apply mem_in. Qed.
Lemma scheme_iff c : scheme_char c = true <-> in_scheme c.
Proof. rewrite scheme_mem, orb_true_iff, letter_iff, mem_in. reflexivity. Qed.
Lemma scheme_rest_iff seen s : scheme_rest seen s = true <-> exists m r, s = m ++ ":"%char :: r /\ (seen = true \/ m <> []) /\ Forall in_scheme m.
Proof.
  revert seen. induction s as [|c s IH]; intros seen; cbn [scheme_rest].
  - split; [discriminate|]. intros ([|x m] & r & E & _); discriminate.
  - destruct (scheme_char c) eqn:E.
    + rewrite IH. split.
      * intros (m & r & -> & _ & F). exists (c :: m), r. split; [reflexivity|]. split; [right; discriminate|]. constructor; [apply scheme_iff, E|exact F].
      * intros ([|x m] & r & Q & _ & F); cbn [app] in Q; injection Q as -> ->; [discriminate E|]. exists m, r. inversion F; subst. auto.
    + rewrite andb_true_iff, Ascii.eqb_eq. split.
      * intros [-> ->]. exists [], s. auto.
      * intros ([|x m] & r & Q & H & F); cbn [app] in Q; injection Q as -> ->; [destruct H as [H|H]; [auto|congruence]|].
        inversion F as [|? ? I]; subst. apply scheme_iff in I. congruence.
Qed.
Lemma sniff_iff s : uri_sniff s = true <-> has_scheme s.
Proof.
  destruct s as [|c s]; cbn [uri_sniff].
  - split; [discriminate|]. intros (c & m & r & E & _); discriminate.
  - rewrite andb_true_iff, letter_iff, scheme_rest_iff. split.
    + intros (L & m & r & -> & [H|H] & F); [discriminate|]. exists c, m, r. auto.
    + intros (c' & m & r & E & L & H & F). injection E as -> ->. split; [exact L|]. exists m, r. auto.
Qed.
Lemma sniff_false s : uri_sniff s = false <-> ~ has_scheme s.
Proof. rewrite <- sniff_iff. destruct (uri_sniff s); intuition congruence. Qed.

Lemma concat_switch a o : concat (map attribute (switch a o)) = if has_option1 o a then $" " ++ o else [].
Proof. unfold switch. destruct (has_option1 o a); [|reflexivity]. cbn. rewrite !app_nil_r. reflexivity. Qed.
Lemma attr_html n x : concat (map attribute [(n, Some (EscapeModel.push_escaped true x))]) = EscapeModel.html_attr n x.
Proof. cbn [map concat]. rewrite app_nil_r. reflexivity. Qed.

Lemma located_text dir t u : located dir t u ->
  (match dir with Some d => if negb (uri_sniff t) then d ++ $"/" else [] | None => [] end) ++ t = u.
Proof.
  intros [d [-> N]|[->|H]].
  - apply sniff_false in N. rewrite N. cbn [negb]. rewrite <- app_assoc. reflexivity.
  - reflexivity.
  - apply sniff_iff in H. rewrite H. destruct dir; reflexivity.
Qed.
Lemma poster_text dir a ps : poster_gives dir a ps ->
  (match or_else (named1 $"poster" a) (str_positional1 0 a) with
   | Some x =>
       match dir with
       | Some d => if negb (uri_sniff x) then $" poster=""" ++ d ++ $"/" ++ x ++ $"""" else EscapeModel.html_attr $"poster" x
       | None => EscapeModel.html_attr $"poster" x
       end
   | None => []
   end) = concat (map attribute ps).
Proof.
  assert (C : forall x, named1 $"poster" a = Some x \/ named1 $"poster" a = None /\ str_positional1 0 a = Some x ->
    or_else (named1 $"poster" a) (str_positional1 0 a) = Some x) by (intros x [->|[-> ->]]; reflexivity).
  intros [E F|x d H [-> N]|x H [->|S0]].
  - rewrite E, F. reflexivity.
  - rewrite (C x H). apply sniff_false in N. rewrite N. cbn [negb map concat]. unfold attribute, quoted. cbn [fst snd]. rewrite app_nil_r, <- !app_assoc. reflexivity.
  - rewrite (C x H), attr_html. reflexivity.
  - rewrite (C x H), attr_html. apply sniff_iff in S0. rewrite S0. destruct dir; reflexivity.
Qed.
Lemma native_player dir a t u ps : located dir t u -> poster_gives dir a ps ->
  native_element dir t a (or_else (named1 $"poster" a) (str_positional1 0 a)) = player a u ps.
Proof.
  intros L P. unfold native_element. rewrite (poster_text dir a ps P), dims_size.
  rewrite (app_assoc (match dir with Some d => _ | None => _ end) t), (located_text dir t u L).
  unfold player, html. rewrite !map_app, !concat_app, !concat_switch.
  generalize (concat (map attribute (size a $"width" 1))), (concat (map attribute (size a $"height" 2))), (concat (map attribute ps)). intros w h q.
  assert (T : forall z, (match named1 $"start" a, named1 $"end" a with
      | None, Some e => $"#t=," ++ e ++ $""""
      | Some s, None => $"#t=" ++ s ++ $""""
      | Some s, Some e => $"#t=" ++ s ++ $"," ++ e ++ $""""
      | None, None => $""""
      end) ++ z = time_of a ++ $"""" ++ z).
  { intros z. unfold time_of. destruct (named1 $"start" a), (named1 $"end" a); rewrite ?app_nil_r, <- ?app_assoc; reflexivity. }
  rewrite T. cbn [map concat]. unfold attribute at 1. unfold quoted. cbn [fst snd].
  change ($"<video src=""") with ($"<" ++ $"video" ++ $" " ++ $"src" ++ $"=" ++ $"""").
  rewrite ?app_nil_r, <- !app_assoc. do 11 f_equal.
  destruct (named1 $"preload" a) as [x|]; rewrite ?attr_html;
    destruct (has_option1 $"autoplay" a), (has_option1 $"muted" a), (has_option1 $"loop" a), (has_option1 $"nocontrols" a); cbn [negb map concat]; rewrite ?app_nil_r, <- ?app_assoc; reflexivity.
Qed.
Lemma element_player dir a t u ps : (forall p, str_positional1 0 a <> Some (name_of p)) -> located dir t u -> poster_gives dir a ps ->
  element dir t a = player a u ps.
Proof.
  intros N L P. rewrite <- (native_player dir a t u ps L P). unfold element. cbv zeta.
  assert (Q : forall p, is_text (str_positional1 0 a) (name_of p) = false).
  { intros p. specialize (N p). destruct (str_positional1 0 a) as [x|]; [|reflexivity]. cbn [is_text].
    destruct (bytes_eqb x (name_of p)) eqn:E; [|reflexivity]. apply bytes_eqb_eq in E. congruence. }
  pose proof (Q YouTube) as Q1. pose proof (Q Vimeo) as Q2. pose proof (Q Wistia) as Q3. cbn [name_of] in Q1, Q2, Q3. rewrite Q1, Q2, Q3. reflexivity.
Qed.
Lemma located_total dir t : exists u, located dir t u.
Proof.
  destruct dir as [d|]; [|exists t; right; left; reflexivity]. destruct (uri_sniff t) eqn:E.
  - exists t. right. right. apply sniff_iff, E.
  - eexists. left. split; [reflexivity|apply sniff_false, E].
Qed.
Lemma poster_total dir a : exists ps, poster_gives dir a ps.
Proof.
  assert (H : forall x, (named1 $"poster" a = Some x \/ named1 $"poster" a = None /\ str_positional1 0 a = Some x) -> exists ps, poster_gives dir a ps).
  { intros x H. destruct (uri_sniff x) eqn:E.
    - eexists. apply (PosterElsewhere dir a x H). right. apply sniff_iff, E.
    - destruct dir as [d|]; [|eexists; apply (PosterElsewhere None a x H); left; reflexivity].
      eexists. apply (PosterInside (Some d) a x d H). split; [reflexivity|apply sniff_false, E]. }
  destruct (named1 $"poster" a) as [x|] eqn:E; [apply (H x); auto|].
  destruct (str_positional1 0 a) as [x|] eqn:F; [apply (H x); auto|]. exists []. apply NoPoster; assumption.
Qed.
