(** The text in a listing (C73). *)
From Verif Require Import Base Utf8 LexerModel LineModel SubsModel InlineModel InlineSpec WholeModel WholeSpec WholeLexProofs WholePieceProofs WholeInlineProofs.
From Verif Require Import InlineTermSpec InlineTermProofs BoxSpec BoxInlineProofs.
Import ListNotations.
Open Scope list_scope.
Open Scope nat_scope.

(** ** What a list of nodes shows where no text is formatted and lines stay lines *)
Definition vnode_html (n : inode) : bytes := match n with NText x => x | NSpecial k => special_html k | NNewline => newline | _ => [] end.
Definition vgood (n : inode) : bool := match n with NText _ | NSpecial _ | NNewline => true | _ => false end.
Definition vnodes_html (ns : list inode) : bytes := concat (map vnode_html ns).
Definition vshows (a : accum) : bytes := vnodes_html (nodes_of a) ++ text a.
Definition vfine (a : accum) : Prop := forallb vgood (nodes_of a) = true.
Lemma vgood_good ns : forallb vgood ns = true -> forallb good ns = true.
Proof. intros H. rewrite forallb_forall in *. intros n I. specialize (H n I). destruct n; try discriminate H; reflexivity. Qed.
Lemma vfine_fine a : vfine a -> fine a. Proof. apply vgood_good. Qed.
Lemma vnodes_app x y : vnodes_html (x ++ y) = vnodes_html x ++ vnodes_html y.
Proof. unfold vnodes_html. now rewrite map_app, concat_app. Qed.
Lemma vadd_html ns x : vnodes_html (add_text ns x) = vnodes_html ns ++ x.
Proof.
  unfold add_text. destruct x as [|c x]; [now rewrite app_nil_r|]. destruct (rev ns) as [|n r] eqn:R; [rewrite vnodes_app; cbn; now rewrite app_nil_r|]. apply (f_equal (@rev _)) in R. rewrite rev_involutive in R. cbn [rev] in R.
  destruct n; try (rewrite vnodes_app; cbn; now rewrite app_nil_r). subst ns. rewrite !vnodes_app. cbn. now rewrite !app_nil_r, app_assoc.
Qed.
Lemma vadd_good ns x : forallb vgood ns = true -> forallb vgood (add_text ns x) = true.
Proof.
  intros H. unfold add_text. destruct x as [|c x]; [exact H|]. destruct (rev ns) as [|n r] eqn:R; [rewrite forallb_app, H; reflexivity|]. apply (f_equal (@rev _)) in R. rewrite rev_involutive in R. cbn [rev] in R.
  destruct n; try (rewrite forallb_app, H; reflexivity). subst ns. rewrite forallb_app in *. apply andb_true_iff in H as [-> _]. reflexivity.
Qed.
Lemma vtext_shows x a : vshows (push_text x a) = vshows a ++ x.
Proof. unfold vshows, push_text. cbn. now rewrite app_assoc. Qed.
Lemma vnode_shows n a : vshows (push_node n a) = vshows a ++ vnode_html n.
Proof. unfold vshows, push_node. cbn [nodes_of text commit]. rewrite vnodes_app, vadd_html, app_nil_r. cbn. now rewrite app_nil_r. Qed.
Lemma vnode_fine n a : vfine a -> vgood n = true -> vfine (push_node n a).
Proof. intros F G. unfold vfine, push_node. cbn [nodes_of commit]. rewrite forallb_app, vadd_good by exact F. cbn. now rewrite G. Qed.
Lemma vfinish a : vfine a -> vnodes_html (finish a None) = vshows a /\ forallb vgood (finish a None) = true.
Proof.
  intros F. unfold finish. cbn [push_unused]. pose proof (vadd_good _ (text a) F) as G. cbn [commit nodes_of]. set (ns := add_text (nodes_of a) (text a)) in *.
  assert (T : InlineModel.trimmed (length ns) (rev ns) = rev ns).
  { destruct (rev ns) as [|n r] eqn:R; [now destruct (length ns)|]. apply (f_equal (@rev _)) in R. rewrite rev_involutive in R. cbn [rev] in R. rewrite R, forallb_app in G. cbn in G. rewrite andb_true_r in G. apply andb_true_iff in G as [_ G].
    destruct (length ns); [reflexivity|]. destruct n; first [reflexivity|discriminate G]. }
  rewrite T, rev_involutive. split; [|exact G]. unfold ns. now rewrite vadd_html.
Qed.

(** ** Tokens *)
(** tokens of ordinary kinds, no two signs < next to each other *)
Fixpoint tame (ts : list tok) : bool := match ts with [] => true | t :: r => existsb (kind_eqb (tk t)) ordinary && negb (is_k LessThan t && current_is LessThan r) && tame r end.
Definition tok_html (t : tok) : bytes := match special_of (tk t) with Some k => special_html k | None => tx t end.
Definition pushed (t : tok) (a : accum) : accum := match special_of (tk t) with Some k => push_node (NSpecial k) a | None => push_text (tx t) a end.
Definition all_pushed (ts : list tok) (a : accum) : accum := fold_left (fun a t => pushed t a) ts a.
Lemma pushed_shows t a : vshows (pushed t a) = vshows a ++ tok_html t.
Proof. unfold pushed, tok_html. destruct (special_of (tk t)); [apply vnode_shows|apply vtext_shows]. Qed.
Lemma pushed_fine t a : vfine a -> vfine (pushed t a).
Proof. intros F. unfold pushed. destruct (special_of (tk t)); [now apply vnode_fine|exact F]. Qed.
Lemma all_shows ts : forall a, vshows (all_pushed ts a) = vshows a ++ concat (map tok_html ts).
Proof. induction ts as [|t ts IH]; intros a; cbn; [now rewrite app_nil_r|]. unfold all_pushed in IH. now rewrite IH, pushed_shows, app_assoc. Qed.
Lemma all_fine ts : forall a, vfine a -> vfine (all_pushed ts a).
Proof. induction ts as [|t ts IH]; intros a F; cbn; [exact F|]. apply IH. now apply pushed_fine. Qed.
Section Runs.
Variable E : env.
Lemma tame_not k t r : tame (t :: r) = true -> existsb (kind_eqb k) ordinary = false -> is_k k t = false.
Proof. intros H N. cbn [tame] in H. apply andb_true_iff in H as [H _]. apply andb_true_iff in H as [H _]. destruct (is_k k t) eqn:K; [|reflexivity]. apply kind_eqb_eq in K. congruence. Qed.
Lemma tame_step s a t l ls : tame (t :: toks l) = true -> token_step E [] verbatim s a None t l ls = Go s (pushed t a) None (Some l) ls.
Proof.
  intros T. unfold pushed. assert (K : existsb (kind_eqb (tk t)) ordinary = true) by (cbn [tame] in T; apply andb_true_iff in T as [T _]; now apply andb_true_iff in T).
  assert (N : negb (is_k LessThan t && current_is LessThan (toks l)) = true) by (cbn [tame] in T; apply andb_true_iff in T as [T _]; now apply andb_true_iff in T).
  assert (P : current_is Plus (toks l) = false /\ current_is Hash (toks l) = false).
  { cbn [tame] in T. apply andb_true_iff in T as [_ T]. destruct (toks l) as [|u m]; [now split|]. split; apply (tame_not _ u m T); reflexivity. }
  destruct P as [PP PH]. destruct t as [k x i]. cbn [tk tx] in *. 
  assert (IN : In k ordinary) by (apply existsb_exists in K as (k' & I & EQ); apply kind_eqb_eq in EQ; now subst).
  unfold ordinary in IN. cbn [In] in IN. destruct IN as [<-|[<-|[<-|[<-|[<-|[<-|[<-|[<-|[<-|[<-|[<-|[<-|[<-|[]]]]]]]]]]]]]]; unfold token_step; cbn -[starts_with_seq continues_xref callouts_only current_is]; try reflexivity.
  all: try (rewrite PP; reflexivity).
  - rewrite andb_false_r, PP. reflexivity.
  - destruct (toks l) as [|u m]; [reflexivity|]. cbn in PH |- *. rewrite PH. reflexivity.
  - unfold continues_xref. cbn in N. apply negb_true_iff in N. change (is_k LessThan _) with true in N. cbn [andb] in N. rewrite N. reflexivity.
Qed.

Hypothesis free : forall l, ordinary_start (toks l) = true -> stops E l = false.
Hypothesis blank_free : forall l, toks l = [] -> stops E l = false.
Lemma vrun_toks s ls res : forall ts a ln, mild ln -> toks ln = ts -> tame ts = true -> ends E [] verbatim s (joining_newline (all_pushed ts a) ls) None ls res -> ends E [] verbatim s a (Some ln) ls res.
Proof.
  induction ts as [|t ts IH]; intros a ln M T TM K.
  - refine (ends_go E _ _ _ _ _ _ _ _ _ _ _ _ K). cbn [step]. rewrite T. cbn [at_stop]. destruct M as [M1 M2]. unfold may_contain_pass. rewrite M1, M2. reflexivity.
  - pose proof TM as TM'. cbn [tame] in TM'. apply andb_true_iff in TM' as [_ TM']. refine (ends_go E _ _ _ _ _ _ _ _ _ _ _ _ (IH (pushed t a) (adv ln ts) M eq_refl TM' K)).
    rewrite (at_token E [] verbatim s a t ts ln ls M T); [now apply tame_step|]. rewrite T. reflexivity.
Qed.
Definition of_text (ln : iline) (l : line) : Prop := mild ln /\ exists p prev, toks ln = lay p prev (line_pieces l).
Definition text_of_line (l : line) : bytes := concat (map (fun x : piece => match special_of (fst x) with Some k => special_html k | None => snd x end) (line_pieces l)).
Lemma lay_html l : forall p prev, concat (map tok_html (lay p prev l)) = concat (map (fun x : piece => match special_of (fst x) with Some k => special_html k | None => snd x end) l).
Proof. induction l as [|[k x] l IH]; intros p prev; [reflexivity|]. cbn [lay map concat fst snd]. now rewrite IH. Qed.
Fixpoint ptame (l : list piece) : bool := match l with [] => true | x :: r => existsb (kind_eqb (fst x)) ordinary && negb (kind_eqb (fst x) LessThan && match r with y :: _ => kind_eqb (fst y) LessThan | [] => false end) && ptame r end.
Lemma lay_tame l : forall p prev, ptame l = true -> tame (lay p prev l) = true.
Proof. induction l as [|[k x] l IH]; intros p prev H; [reflexivity|]. cbn [ptame lay tame tk fst] in *. apply andb_true_iff in H as [H1 H2]. rewrite (IH _ _ H2), andb_true_r. rewrite <- H1. f_equal. f_equal. destruct l as [|[k' x'] l]; reflexivity. Qed.
Definition not_less (l : list piece) : Prop := match l with (LessThan, _) :: _ => False | _ => True end.
Lemma ptame_app x y : ptame x = true -> ptame y = true -> not_less y -> ptame (x ++ y) = true.
Proof.
  intros H1 H2 N. induction x as [|[k x] l IH]; [exact H2|]. cbn [ptame app fst] in *. apply andb_true_iff in H1 as [H1 H3]. rewrite (IH H3), andb_true_r. apply andb_true_iff in H1 as [-> H1]. cbn [andb].
  destruct l as [|[k' x'] l]; [|exact H1]. cbn [app]. destruct y as [|[k' y'] y]; [exact H1|]. cbn in N |- *. destruct k'; try (now rewrite andb_false_r); easy.
Qed.
Lemma ptame_sep l : Forall (fun x => ptame x = true) l -> ptame (sepj space l) = true.
Proof.
  induction 1 as [|x l H _ IH]; [reflexivity|]. destruct l as [|y l]; [exact H|]. change (sepj space (x :: y :: l)) with (x ++ space :: sepj space (y :: l)). apply ptame_app; [exact H| |exact I]. cbn [ptame fst space]. cbn -[ptame]. exact IH.
Qed.
Lemma ptame_words ws : ptame (words_pieces ws) = true.
Proof. apply ptame_sep. rewrite Forall_map. apply Forall_forall. reflexivity. Qed.
Lemma ptame_item i : item_ok i = true -> ptame (item_pieces i) = true.
Proof.
  unfold item_ok, item_pieces. destruct i as [p x]. cbn [fst snd]. intros H. apply andb_true_iff in H as [OP OX]. apply ptame_app.
  - destruct p as [w|c|st ws]; cbn [phrase_pieces].
    + unfold word_piece. now destruct (a_name w).
    + cbn [phrase_ok existsb] in OP. unfold special_kind_of. cbn [ptame fst]. destruct (Ascii.eqb c "&"); [reflexivity|]. destruct (Ascii.eqb c "<"); reflexivity.
    + assert (M : forall rest, ptame rest = true -> ptame ((mark_kind st, mark st) :: rest) = true) by (intros rest R; cbn [ptame fst]; rewrite R; destruct st; reflexivity).
      apply M. apply ptame_app; [apply ptame_words|now apply (M [])|destruct st; exact I].
  - destruct x as [|c [|d x]]; [reflexivity| |discriminate OX]. cbn in OX. cbn [punct_pieces map ptame fst]. apply orb_true_iff in OX as [X|OX]; [apply Ascii.eqb_eq in X; subst c; reflexivity|]. apply orb_true_iff in OX as [X|OX]; [apply Ascii.eqb_eq in X; subst c; reflexivity|].
    apply orb_true_iff in OX as [X|OX]; [apply Ascii.eqb_eq in X; subst c; reflexivity|]. apply orb_true_iff in OX as [X|OX]; [apply Ascii.eqb_eq in X; subst c; reflexivity|discriminate OX].
  - destruct x as [|c [|d x]]; [exact I| |discriminate OX]. cbn in OX. apply orb_true_iff in OX as [X|OX]; [apply Ascii.eqb_eq in X; subst c; exact I|]. apply orb_true_iff in OX as [X|OX]; [apply Ascii.eqb_eq in X; subst c; exact I|].
    apply orb_true_iff in OX as [X|OX]; [apply Ascii.eqb_eq in X; subst c; exact I|]. apply orb_true_iff in OX as [X|OX]; [apply Ascii.eqb_eq in X; subst c; exact I|discriminate OX].
Qed.
Lemma line_tame l p prev : forallb item_ok l = true -> tame (lay p prev (line_pieces l)) = true.
Proof. intros H. apply lay_tame, ptame_sep. rewrite Forall_map. apply Forall_forall. intros i I. rewrite forallb_forall in H. now apply ptame_item, H. Qed.
Lemma text_enter q s a l ls r : of_text l [] \/ ordinary_start (toks l) = true -> ends E q verbatim s a (Some l) ls r -> ends E q verbatim s a None (l :: ls) r.
Proof.
  intros O K. refine (ends_go E _ _ _ _ _ _ _ _ _ _ _ _ K). cbn [step]. replace (stops E l) with false; [now rewrite andb_false_r|]. symmetry. destruct O as [(_ & p & prev & T)|O]; [now apply blank_free|now apply free].
Qed.
Lemma vjoining a l ls : vfine a -> joining_newline a (l :: ls) = push_node NNewline a.
Proof. intros F. now apply joining_fine, vfine_fine. Qed.
Lemma vhalt_ends s a rest : halts E rest -> vfine a -> exists ns, forallb vgood ns = true /\ vnodes_html ns = vshows a /\ ends E [] verbatim s (joining_newline a rest) None rest (Done s ns rest).
Proof.
  intros H F. destruct rest as [|x r].
  - destruct (vfinish a F) as [S G]. exists (finish a None). split; [exact G|]. split; [exact S|]. now apply ends_fin.
  - destruct H as (H & N & U). rewrite vjoining by exact F. assert (FC : vfine (commit a)) by (unfold vfine, commit; cbn [nodes_of]; now apply vadd_good).
    destruct (vfinish (commit a) FC) as [S G]. exists (finish (commit a) None). split; [exact G|]. split; [rewrite S; unfold vshows, commit; cbn [nodes_of text]; now rewrite vadd_html, app_nil_r|]. apply ends_fin. cbn [step]. rewrite H. unfold restore. destruct (toks x) as [|t u] eqn:T; [easy|].
    f_equal. f_equal. unfold push_node. cbn [nodes_of text]. unfold remove_trailing_newline. rewrite rev_unit, rev_involutive. reflexivity.
Qed.
Lemma vrun_lines s rest : halts E rest -> forall ls lns a, ls <> [] -> Forall2 of_text lns ls -> Forall (fun l => forallb item_ok l = true) ls -> vfine a ->
  exists ns, forallb vgood ns = true /\ vnodes_html ns = vshows a ++ join newline (map text_of_line ls) /\ ends E [] verbatim s a None (lns ++ rest) (Done s ns rest).
Proof.
  intros H. induction ls as [|l ls IH]; intros lns a NE F OK FA; [easy|]. inversion F as [|ln l' lns' ls' OL F']; subst. inversion OK as [|? ? OI OK']; subst. pose proof OL as (M & p & prev & T). cbn [app].
  assert (EN : of_text ln [] \/ ordinary_start (toks ln) = true) by (destruct l as [|i l]; [now left|right; rewrite T; now apply line_ordinary]).
  set (a' := all_pushed (lay p prev (line_pieces l)) a). assert (FA' : vfine a') by now apply all_fine. assert (S' : vshows a' = vshows a ++ text_of_line l) by (unfold a'; rewrite all_shows, lay_html; reflexivity).
  destruct ls as [|l2 ls].
  - inversion F'; subst. cbn [app]. destruct (vhalt_ends s a' rest H FA') as (ns & G & SH & E2). exists ns. split; [exact G|]. split; [now rewrite SH, S'|]. apply text_enter; [exact EN|]. apply (vrun_toks s rest _ _ a ln M T); [now apply line_tame|exact E2].
  - assert (J : joining_newline a' (lns' ++ rest) = push_node NNewline a') by (inversion F'; subst; cbn [app]; now apply vjoining).
    destruct (IH lns' (push_node NNewline a') ltac:(discriminate) F' OK' (vnode_fine NNewline _ FA' eq_refl)) as (ns & G & SH & E2). exists ns. split; [exact G|]. split.
    + rewrite SH, vnode_shows, S'. change (map text_of_line (l :: l2 :: ls)) with (text_of_line l :: map text_of_line (l2 :: ls)). change (join newline (text_of_line l :: map text_of_line (l2 :: ls))) with (text_of_line l ++ newline ++ join newline (map text_of_line (l2 :: ls))). cbn [vnode_html]. now rewrite <- !app_assoc.
    + apply text_enter; [exact EN|]. apply (vrun_toks s (lns' ++ rest) _ _ a ln M T); [now apply line_tame|]. fold a'. now rewrite J.
Qed.
Lemma parse_listing s lns ls rest : subs_of s = verbatim -> halts E rest -> Forall2 of_text lns ls -> Forall (fun l => forallb item_ok l = true) ls -> match ls with [] :: _ => False | _ => True end ->
  exists ns, forallb vgood ns = true /\ vnodes_html ns = join newline (map text_of_line ls) /\ parse_inlines_until (enough (lns ++ rest)) E [] s (lns ++ rest) = Done s ns rest.
Proof.
  intros C H F OK NB. assert (R : lns ++ rest = [] \/ exists l r t m, lns ++ rest = l :: r /\ toks l = t :: m).
  { inversion F as [|ln l lns' ls' OL F']; subst; [destruct rest as [|x r]; [now left|]; right; destruct H as (_ & N & _); destruct (toks x) as [|t m] eqn:T; [easy|]; now exists x, r, t, m|]. right. destruct OL as (_ & p & prev & T). destruct l as [|i l]; [easy|]. pose proof (Forall_inv OK) as OI. cbn beta in OI.
    pose proof (line_ordinary (i :: l) p prev ltac:(discriminate) OI) as LO. rewrite <- T in LO. destruct (toks ln) as [|t m] eqn:TE; [discriminate LO|]. exists ln, (lns' ++ rest), t, m. now split. }
  assert (X : exists ns, forallb vgood ns = true /\ vnodes_html ns = join newline (map text_of_line ls) /\ ends E [] verbatim s acc0 None (lns ++ rest) (Done s ns rest)).
  { destruct ls as [|l ls]; [inversion F; subst; cbn [app]|destruct (vrun_lines s rest H (l :: ls) lns acc0 ltac:(discriminate) F OK eq_refl) as (ns & G & S & K); now exists ns].
    exists []. split; [reflexivity|]. split; [reflexivity|]. destruct rest as [|x r]; [now apply ends_fin|]. destruct H as (H & N & U). apply ends_fin. cbn [step]. rewrite H. unfold restore. destruct (toks x); [easy|reflexivity]. }
  destruct X as (ns & G & S & _ & n & K). exists ns. split; [exact G|]. split; [exact S|].
  pose proof (parse_ends E [] s (lns ++ rest) (enough (lns ++ rest)) (le_n _)) as PE. unfold parse_inlines_until in *. destruct R as [R|(l & r & t & m & R & T)].
  - rewrite R in *. apply app_eq_nil in R as [-> ->]. cbn [app] in *. destruct n as [|n]; [discriminate K|]. cbn in K. injection K as <-. reflexivity.
  - rewrite R in *. rewrite T in *. rewrite C in *. set (f := enough (l :: r)) in *.
    rewrite <- (go_more E f _ _ _ _ _ _ _ PE (Nat.max f n)) by lia. rewrite (go_more E n) by (try lia; rewrite K; discriminate). exact K.
Qed.
End Runs.

(** ** The text is that of the source, with special characters written in another way *)
Lemma escape_app x y : escape (x ++ y) = escape x ++ escape y.
Proof. apply flat_map_app. Qed.
Lemma escape_join ls : escape (join newline ls) = join newline (map escape ls).
Proof.
  induction ls as [|x ls IH]; [reflexivity|]. destruct ls as [|y ls]; [reflexivity|]. change (join newline (x :: y :: ls)) with (x ++ newline ++ join newline (y :: ls)). rewrite !escape_app, IH. reflexivity.
Qed.
Definition unspecial (c : ascii) : bool := negb (existsb (Ascii.eqb c) ["&"; "<"; ">"]%char).
Lemma escape_plain x : forallb unspecial x = true -> escape x = x.
Proof.
  induction x as [|c x IH]; [reflexivity|]. cbn [forallb]. intros H. apply andb_true_iff in H as [C H]. change (c :: x) with ([c] ++ x) at 1. rewrite escape_app, (IH H). unfold escape. cbn [flat_map]. unfold unspecial in C. apply negb_true_iff in C. rewrite C. reflexivity.
Qed.
Lemma name_char c : a_letter c || a_digit c = true -> unspecial c = true.
Proof.
  intros H. unfold unspecial. apply negb_true_iff, not_true_iff_false. intros E. cbn [existsb] in E. apply orb_true_iff in E as [E|E]; [apply Ascii.eqb_eq in E; subst c; discriminate H|]. apply orb_true_iff in E as [E|E]; [apply Ascii.eqb_eq in E; subst c; discriminate H|].
  apply orb_true_iff in E as [E|E]; [apply Ascii.eqb_eq in E; subst c; discriminate H|discriminate E].
Qed.
Lemma name_plain w : a_name w = true -> escape w = w.
Proof.
  intros H. apply escape_plain. destruct w as [|c r]; [reflexivity|]. cbn [a_name] in H. apply andb_true_iff in H as [C H]. cbn [forallb]. rewrite name_char by now rewrite C. cbn [andb]. rewrite forallb_forall in *. intros d I. now apply name_char, H.
Qed.
Lemma number_plain w : a_number w = true -> escape w = w.
Proof.
  intros H. apply escape_plain. unfold a_number in H. destruct w as [|c r]; [reflexivity|]. rewrite forallb_forall in *. intros d I. apply name_char. rewrite (H d I). apply orb_true_r.
Qed.
Definition piece_html (x : piece) : bytes := match special_of (fst x) with Some k => special_html k | None => snd x end.
Definition faithful (l : list piece) : Prop := concat (map piece_html l) = escape (flat l).
Lemma faithful_app x y : faithful x -> faithful y -> faithful (x ++ y).
Proof. unfold faithful. intros H1 H2. now rewrite map_app, concat_app, flat_app, escape_app, H1, H2. Qed.
Lemma faithful_sep l : Forall faithful l -> faithful (sepj space l).
Proof.
  induction 1 as [|x l H _ IH]; [reflexivity|]. destruct l as [|y l]; [exact H|]. change (sepj space (x :: y :: l)) with (x ++ [space] ++ sepj space (y :: l)). apply faithful_app; [exact H|]. apply faithful_app; [reflexivity|exact IH].
Qed.
Lemma faithful_word k w : special_of k = None -> escape w = w -> faithful [(k, w)].
Proof. intros K E. unfold faithful. cbn [map concat]. unfold piece_html. cbn [fst snd]. rewrite K. unfold flat. cbn [map concat snd]. now rewrite !app_nil_r, E. Qed.
Lemma faithful_item i : item_ok i = true -> faithful (item_pieces i).
Proof.
  unfold item_ok, item_pieces. destruct i as [p x]. cbn [fst snd]. intros H. apply andb_true_iff in H as [OP OX]. apply faithful_app.
  - destruct p as [w|c|st ws]; cbn [phrase_pieces].
    + cbn [phrase_ok] in OP. unfold word_piece. destruct (a_name w) eqn:N; [apply faithful_word; [reflexivity|now apply name_plain]|]. apply faithful_word; [reflexivity|now apply number_plain].
    + cbn [phrase_ok existsb] in OP. apply orb_true_iff in OP as [X|OP]; [apply Ascii.eqb_eq in X; subst c; reflexivity|]. apply orb_true_iff in OP as [X|OP]; [apply Ascii.eqb_eq in X; subst c; reflexivity|]. apply orb_true_iff in OP as [X|OP]; [apply Ascii.eqb_eq in X; subst c; reflexivity|discriminate OP].
    + assert (W : forallb a_name ws = true) by (cbn [phrase_ok] in OP; now destruct ws). change ((mark_kind st, mark st) :: words_pieces ws ++ [(mark_kind st, mark st)]) with ([(mark_kind st, mark st)] ++ words_pieces ws ++ [(mark_kind st, mark st)]).
      apply faithful_app; [destruct st; reflexivity|]. apply faithful_app; [|destruct st; reflexivity]. apply faithful_sep. rewrite Forall_map. apply Forall_forall. intros w I. rewrite forallb_forall in W. apply faithful_word; [reflexivity|now apply name_plain, W].
  - destruct x as [|c [|d x]]; [reflexivity| |discriminate OX]. cbn in OX. apply orb_true_iff in OX as [X|OX]; [apply Ascii.eqb_eq in X; subst c; reflexivity|]. apply orb_true_iff in OX as [X|OX]; [apply Ascii.eqb_eq in X; subst c; reflexivity|].
    apply orb_true_iff in OX as [X|OX]; [apply Ascii.eqb_eq in X; subst c; reflexivity|]. apply orb_true_iff in OX as [X|OX]; [apply Ascii.eqb_eq in X; subst c; reflexivity|discriminate OX].
Qed.
Lemma line_escaped l : forallb item_ok l = true -> text_of_line l = escape (line_source l).
Proof. intros H. rewrite <- flat_line. apply faithful_sep. rewrite Forall_map. apply Forall_forall. intros i I. rewrite forallb_forall in H. now apply faithful_item, H. Qed.
Lemma lines_escaped ls : Forall (fun l => forallb item_ok l = true) ls -> join newline (map text_of_line ls) = escape (join newline (map line_source ls)).
Proof. intros F. rewrite escape_join, map_map. f_equal. apply map_ext_in. intros l I. rewrite Forall_forall in F. now apply line_escaped, F. Qed.
