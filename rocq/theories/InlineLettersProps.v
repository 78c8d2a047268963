(** C53: parsing the text of a paragraph loses no letter, adds none and moves none. *)
From Coq Require Import String Ascii.
From Verif Require Import Base Utf8 LexerModel InlineModel InlineSpec InlineLettersSpec InlineLettersProofs InlineLexedProofs.

Lemma with_macros t : lexed t -> ordinary t -> passes_nothing t -> okt true t.
Proof.
  intros L [O C] P. unfold one_of in O. cbn in O. apply Bool.orb_false_iff in O as [O1 O]. apply Bool.orb_false_iff in O as [O2 O]. apply Bool.orb_false_iff in O as [O3 _].
  split; [exact L|]. split; [unfold one_of; cbn; now rewrite O1, O2|]. split; [exact C|]. split; [exact P|]. intros K. rewrite K in O3. discriminate.
Qed.
Lemma with_passthroughs t : lexed t -> ordinary t -> calls_nothing t -> okt false t.
Proof.
  intros L [O C] P. unfold one_of in O. cbn in O. apply Bool.orb_false_iff in O as [O1 O]. apply Bool.orb_false_iff in O as [O2 O]. apply Bool.orb_false_iff in O as [O3 _].
  split; [exact L|]. split; [unfold one_of; cbn; now rewrite O1, O2|]. split; [exact C|]. split; [exact P|]. intros K. rewrite K in O3. discriminate.
Qed.

(** Formatting, macros, links, cross references, anchors, index terms, footnotes, lists of attributes, symbols, quotes, backslashes and everything else there is, but no passthrough: the letters of the lines are
    those of the nodes the parser gives and of the lines it leaves behind the place where it stops, in the same order. The only exception is reported to the caller. *)
Theorem C53_letters_partial : forall E q s tss fuel s' ns ls',
  dbg E = true -> (forall l, stops E l = false) -> biblio_list E = false ->
  Forall (Forall lexed) tss -> Forall (Forall ordinary) tss -> Forall (Forall passes_nothing) tss -> calm (concat tss) ->
  Forall quiet q -> contains (subs_of s) InlineFormatting && contains (subs_of s) Callouts = false -> aps_of s = None ->
  parse_inlines_until fuel E q s (map line_of tss) = Done s' ns ls' -> ~ In TooManyTerms (errs_of s') ->
  letters (concat (map tx (concat tss))) = all_letters ns ++ left_letters s' ls' /\ (q = [] -> ls' = []).
Proof.
  intros E q s tss fuel s' ns ls' Db St Bib L O P C Q Cs Ap R N. apply parse_letters with true E s fuel; auto; [split; auto; intros _; exact Cs|].
  rewrite Forall_forall in *. intros ts I. specialize (L ts I). specialize (O ts I). specialize (P ts I). rewrite Forall_forall in *. auto using with_macros.
Qed.
Print Assumptions C53_letters_partial.

(** The same with passthroughs between plus signs and with formatting, but without macros, links, cross references, lists of attributes and backslashes. *)
Theorem C53_letters_passthroughs_partial : forall E q s tss fuel s' ns ls',
  dbg E = true -> (forall l, stops E l = false) -> biblio_list E = false ->
  Forall (Forall lexed) tss -> Forall (Forall ordinary) tss -> Forall (Forall calls_nothing) tss ->
  Forall quiet q -> parse_inlines_until fuel E q s (map line_of tss) = Done s' ns ls' -> ~ In TooManyTerms (errs_of s') ->
  letters (concat (map tx (concat tss))) = all_letters ns ++ left_letters s' ls' /\ (q = [] -> ls' = []).
Proof.
  intros E q s tss fuel s' ns ls' Db St Bib L O P Q R N. apply parse_letters with false E s fuel; auto; [split; intros ?; discriminate| |discriminate].
  rewrite Forall_forall in *. intros ts I. specialize (L ts I). specialize (O ts I). specialize (P ts I). rewrite Forall_forall in *. auto using with_passthroughs.
Qed.
Print Assumptions C53_letters_passthroughs_partial.

(** For a whole text, read by the lexer. *)
Theorem C53_text_partial : forall plugins x E s fuel s' ns ls', utf8 x ->
  dbg E = true -> (forall l, stops E l = false) -> biblio_list E = false ->
  (forall t, In t (concat (read plugins x)) -> ordinary t) ->
  (forall t, In t (concat (read plugins x)) -> calls_nothing t) \/
  (forall t, In t (concat (read plugins x)) -> passes_nothing t) /\ calm (concat (read plugins x)) /\ contains (subs_of s) InlineFormatting && contains (subs_of s) Callouts = false /\ aps_of s = None ->
  parse_inlines_until fuel E [] s (map line_of (read plugins x)) = Done s' ns ls' -> ~ In TooManyTerms (errs_of s') ->
  all_letters ns = letters x /\ ls' = [].
Proof.
  intros plugins x E s fuel s' ns ls' U Db St Bib O P R N. destruct (read_good plugins x U) as [L X]. rewrite <- X.
  assert (All : forall Q : tok -> Prop, (forall t, In t (concat (read plugins x)) -> Q t) -> Forall (Forall Q) (read plugins x)).
  { intros Q H. apply Forall_forall. intros ts I. apply Forall_forall. intros t It. apply H. apply in_concat. eauto. }
  assert (K : letters (concat (map tx (concat (read plugins x)))) = all_letters ns ++ left_letters s' ls' /\ ([] = @nil tspec -> ls' = [])).
  { destruct P as [P|(P & C & Cs & Ap)]; [eapply C53_letters_passthroughs_partial|eapply C53_letters_partial]; eauto. }
  destruct K as [K1 K2]. rewrite (K2 eq_refl) in *. rewrite K1. cbn. now rewrite app_nil_r.
Qed.
Print Assumptions C53_text_partial.

(** ** Texts that meet the conditions *)
Definition rich : string := "The *bold _and it_* see link:a.html[the b], https://c.de[f _g_] or <<h,i *j*>>; kbd:[Ctrl,K]footnote:[Said `by` m.]
[.n]#mark# ((o)) (((p,q))) ""`r's`"" -- (C) t... [[u]]v image:w.png[x,1] btn:[OK] \*y* menu:z[a > b] é&amp;".
Definition near (b : list kind) := fix near (l : list tok) : bool := match l with y :: r => one_of b y || is_k DoubleQuote y && near r | [] => false end.
Fixpoint followsb (a : kind) (b : list kind) (l : list tok) : bool := match l with x :: r => is_k a x && near b r || followsb a b r | [] => false end.
Lemma near_spec b dq : forall y r, Forall (fun t => tk t = DoubleQuote) dq -> one_of b y = true -> near b (dq ++ y :: r) = true.
Proof. induction dq as [|d dq IH]; intros y r F O; cbn [app near]; [now rewrite O|]. rewrite (IH y r); [|exact (Forall_inv_tail F)|exact O]. unfold is_k. rewrite (Forall_inv F). cbn. apply Bool.orb_true_r. Qed.
Lemma followsb_spec a b l : follows a b l -> followsb a b l = true.
Proof.
  intros (p & x & dq & y & r & -> & K & F & O). induction p as [|t p IH]; cbn [app followsb]; [|rewrite IH; apply Bool.orb_true_r]. rewrite (near_spec b dq y r F O). unfold is_k. rewrite K.
  now destruct a.
Qed.
Lemma calm_check l : negb (followsb CloseBracket [Backtick] l) = true -> negb (followsb OpenBracket [OpenBracket] l) = true \/ negb (followsb Backslash [CloseBracket] l) = true -> calm l.
Proof.
  assert (K : forall a b, negb (followsb a b l) = true -> ~ follows a b l) by (intros a b H F; apply followsb_spec in F; rewrite F in H; discriminate).
  intros A [B|B]; split; auto.
Qed.

Lemma ordinary_check l : forallb (fun t => negb (one_of [AttrRef; AttrPassDbl; PreprocPassthru] t) && negb (is_k ForwardSlashes t && (length (tx t) =? 2))) l = true -> forall t, In t l -> ordinary t.
Proof.
  rewrite forallb_forall. intros H t I. specialize (H t I). apply andb_prop in H as [A B]. split; [now destruct (one_of _ t)|]. intros [K L]. unfold is_k in B. rewrite K, L in B. discriminate.
Qed.
Lemma passes_check l : forallb (fun t => negb (is_k Plus t) && negb (is_k MacroName t && bytes_eqb (tx t) $"pass:")) l = true -> forall t, In t l -> passes_nothing t.
Proof.
  rewrite forallb_forall. intros H t I. specialize (H t I). apply andb_prop in H as [A B]. unfold is_k in *. split; [intros K; rewrite K in A; discriminate|]. intros [K L]. rewrite K, L in B. discriminate.
Qed.
Definition text_of (x : string) : bytes := list_ascii_of_string x.
Example C53_rich : exists s ns, parse_inlines_until 300 (ascii_env true) [] (start normal) (map line_of (read [] (text_of rich))) = Done s ns [] /\ 30 < length ns /\ all_letters ns = letters (text_of rich) /\
  string_of_list_ascii (letters (text_of rich)) = "TheboldanditseelinkahtmlthebhttpscdefgorhijkbdCtrlKfootnoteSaidbymnmarkopqrsCtuvimagewpngx1btnOKymenuzabéamp"%string.
Proof.
  eexists. eexists. split; [vm_compute; reflexivity|]. split; [vm_compute; lia|]. split; [|vm_compute; reflexivity].
  eapply (C53_text_partial [] (text_of rich) (ascii_env true) (start normal) 300); [apply is_utf8_spec; vm_compute; reflexivity|reflexivity|reflexivity|reflexivity| | |vm_compute; reflexivity|intros []].
  - apply ordinary_check. vm_compute. reflexivity.
  - right. split; [apply passes_check; vm_compute; reflexivity|]. split; [|split; reflexivity]. apply calm_check; [|right]; vm_compute; reflexivity.
Qed.
(** passthroughs in formatting, and a stop sequence *)
Definition plus_signs : string := "a *b +c _d_+ e* `+f `g``+` ++h+i
j++ ~k~] l +m+".
Example C53_plus_signs : exists s ns ls, parse_inlines_until 300 (ascii_env true) [Kind CloseBracket] (start normal) (map line_of (para plus_signs)) = Done s ns ls /\
  string_of_list_ascii (all_letters ns) = "abcdefghijk"%string /\ string_of_list_ascii (left_letters s ls) = "lm"%string /\ pass_of s <> [].
Proof. eexists. eexists. eexists. split; [vm_compute; reflexivity|]. split; [vm_compute; reflexivity|]. split; [vm_compute; reflexivity|]. discriminate. Qed.
Example C53_plus_signs_meets : Forall (Forall lexed) (para plus_signs) /\ Forall (Forall ordinary) (para plus_signs) /\ Forall (Forall calls_nothing) (para plus_signs).
Proof.
  assert (E : para plus_signs = read [] (text_of plus_signs)) by (vm_compute; reflexivity). rewrite E. split; [apply read_good; apply is_utf8_spec; vm_compute; reflexivity|].
  assert (All : forall (P : tok -> Prop) tss, (forall t, In t (concat tss) -> P t) -> Forall (Forall P) tss).
  { intros P tss H. apply Forall_forall. intros ts I. apply Forall_forall. intros t It. apply H. apply in_concat. eauto. }
  split; apply All; [apply ordinary_check; vm_compute; reflexivity|]. intros t I. unfold calls_nothing.
  assert (F : forallb (fun t => negb (one_of [MacroName; UriScheme; LessThan; OpenBracket; Backslash] t)) (concat (read [] (text_of plus_signs))) = true) by (vm_compute; reflexivity).
  rewrite forallb_forall in F. specialize (F t I). clear I. destruct (one_of _ t); [discriminate F|reflexivity].
Qed.

(** ** What is lost without the conditions *)
Definition kept (debug : bool) (x : string) : option (string * string) :=
  match parse_text debug normal x with Done _ ns [] => Some (string_of_list_ascii (letters (text_of x)), string_of_list_ascii (all_letters ns)) | _ => None end.
(** without [calm]: of two lists of attributes the first is forgotten if only a quote is between them; what stands behind a backslash and a bracket in an anchor is dropped *)
Theorem C53_attributes_refuted : kept true "[a]`""[b]*c*" = Some ("abc", "bc")%string.
Proof. vm_compute. reflexivity. Qed.
Print Assumptions C53_attributes_refuted.
Theorem C53_anchor_refuted : kept true "[[a\]b]]c" = Some ("abc", "ac")%string.
Proof. vm_compute. reflexivity. Qed.
Print Assumptions C53_anchor_refuted.
(** passthroughs together with backslashes: the passthrough is replaced although it is escaped, and the stand-in is shown in its place *)
Theorem C53_escaped_passthrough_refuted : kept true "\++foo++" = Some ("foo", "")%string.
Proof. vm_compute. reflexivity. Qed.
Print Assumptions C53_escaped_passthrough_refuted.
(** in a release build the token behind the text of an unfinished link is gone *)
Theorem C53_release_refuted : kept false "link:x[a[b] and more" = Some ("linkxabandmore", "linkxaband")%string.
Proof. vm_compute. reflexivity. Qed.
Print Assumptions C53_release_refuted.
(** the text of a link that begins with two slashes is taken for a comment *)
Theorem C53_slashes_refuted : kept true "link:x[// foo]" = Some ("linkxfoo", "linkx")%string.
Proof. vm_compute. reflexivity. Qed.
Print Assumptions C53_slashes_refuted.
(** more than three index terms: the fourth is dropped, which is reported *)
Theorem C53_terms_refuted : kept true "(((a,b,c,d)))" = Some ("abcd", "abc")%string /\ exists s ns, parse_text true normal "(((a,b,c,d)))" = Done s ns [] /\ errs_of s = [TooManyTerms].
Proof. split; [vm_compute; reflexivity|]. eexists. eexists. split; vm_compute; reflexivity. Qed.
Print Assumptions C53_terms_refuted.
(** Letters are kept, but words of two lines run together if the first line ends with a footnote or a cross reference macro: no line end is between what is shown. *)
Theorem C53_line_end_refuted : nodes (parse_text true normal ("a footnote:[b]" ++ String LF "c")) = Some [NText $"a "; NFootnote None (Some [NText $"b"]); NText $"c"] /\
  nodes (parse_text true normal ("a xref:b[d]" ++ String LF "c")) = Some [NText $"a "; NXref $"b" (Some [NText $"d"]) false; NText $"c"] /\
  nodes (parse_text true normal ("a *b*" ++ String LF "c")) = Some [NText $"a "; NSpan Bold None [NText $"b"]; NNewline; NText $"c"].
Proof. split; [|split]; vm_compute; reflexivity. Qed.
Print Assumptions C53_line_end_refuted.
