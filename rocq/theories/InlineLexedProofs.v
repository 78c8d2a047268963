(** Tokens given by the lexer are such as C53 asks for: lemmas for InlineLettersProps.v. *)
From Verif Require Import Base Utf8 LexerModel LexerSpec LexerProofs InlineModel InlineSpec InlineLettersSpec InlineLettersProofs.
(** ** Tokens of the lexer *)
Lemma letters_none P y : all_of P y -> (forall c, P c = true -> letter c = false) -> letters y = [].
Proof. intros A H. induction A as [|c y Hc A IH]; [reflexivity|]. unfold letters in *. cbn [filter]. now rewrite (H _ Hc), IH. Qed.
Lemma letters_repeat c n : letter c = false -> letters (repeat c n) = [].
Proof. intros H. induction n as [|n IH]; [reflexivity|]. unfold letters in *. cbn [repeat filter]. now rewrite H, IH. Qed.
Lemma in_list_letter l c : forallb (fun x => negb (letter x)) l = true -> in_list l c = true -> letter c = false.
Proof. intros F I. unfold in_list in I. apply existsb_exists in I as (x & I & E). apply Ascii.eqb_eq in E. subst x. rewrite forallb_forall in F. specialize (F _ I). now destruct (letter c). Qed.
Lemma removelast_snoc {A} (l : list A) x : removelast (l ++ [x]) = l.
Proof. apply removelast_last. Qed.
Lemma lexeme_lexed plugins k y i : lexeme_of plugins k y -> lexed (TokI (match k with MaybeEmail => Word | k => k end) y i).
Proof.
  intros L. split; cbn [tx tk].
  - intros M. destruct L as [c k I|s I|c k n I|s N A|s N A|s H|a c s H1 H2 H3|s N A|s H|s H|s I|s I|n|s I| |s I|s I|s I|c s d H1 H2 H3 H4 H5|c s H1 H2]; try discriminate M.
    + cbn [In] in I. repeat (destruct I as [I|I]; [injection I as <- <-; first [discriminate M|reflexivity]|]). destruct I.
    + cbn [In] in I. repeat (destruct I as [<-|I]; [reflexivity|]). destruct I.
    + cbn [In] in I. repeat (destruct I as [I|I]; [injection I as <- <-; first [discriminate M|now apply letters_repeat]|]). destruct I.
    + apply letters_none with (1 := A). intros c. now apply in_list_letter.
  - intros K. destruct L as [c k I|s I|c k n I|s N A|s N A|s H|a c s H1 H2 H3|s N A|s H|s H|s I|s I|n|s I| |s I|s I|s I|c s d H1 H2 H3 H4 H5|c s H1 H2]; try discriminate K.
    + cbn [In] in I. repeat (destruct I as [I|I]; [injection I as <- <-; discriminate K|]). destruct I.
    + cbn [In] in I. repeat (destruct I as [I|I]; [injection I as <- <-; discriminate K|]). destruct I.
    + cbn [tl app]. change ($"<" ++ s ++ $">") with ("<"%char :: s ++ [">"%char]). cbn [tl]. rewrite removelast_last. change ("<"%char :: s ++ [">"%char]) with ($"<" ++ s ++ $">"). rewrite !letters_app. cbn. now rewrite app_nil_r.
    + change ($"<!--" ++ s ++ $"-->") with ("<"%char :: ($"!--" ++ s ++ $"--" ++ [">"%char])). cbn [tl]. rewrite !app_assoc, removelast_last, <- !app_assoc. change ("<"%char :: ($"!--" ++ s ++ $"--" ++ [">"%char])) with ($"<" ++ ($"!--" ++ s ++ $"--" ++ [">"%char])).
      rewrite !letters_app. cbn. now rewrite !app_nil_r.
Qed.
Lemma cut_lines_all (P : tok -> Prop) l : forall cur, Forall P cur -> Forall P l -> Forall (Forall P) (cut_lines cur l).
Proof.
  induction l as [|t l IH]; intros cur C F; cbn [cut_lines]; [now constructor|]. pose proof (Forall_inv F). pose proof (Forall_inv_tail F) as F'.
  destruct (is_k Newline t); [constructor; [exact C|apply IH; auto]|]. destruct (is_k Eof t); [now apply IH|]. apply IH; [|exact F']. apply Forall_app. split; [exact C|now constructor].
Qed.
Lemma cut_lines_letters l : forall cur, Forall (fun t => lexed t /\ tk t <> Eof) l -> letters (concat (map tx (concat (cut_lines cur l)))) = letters (concat (map tx (cur ++ l))).
Proof.
  induction l as [|t l IH]; intros cur F; cbn [cut_lines]; [reflexivity|]. destruct (Forall_inv F) as [K N]. pose proof (Forall_inv_tail F) as F'. destruct (is_k Newline t) eqn:B.
  - cbn [concat]. rewrite !map_app, !concat_app, !letters_app, IH by exact F'. cbn [app map concat]. rewrite letters_app. destruct K as [K _]. rewrite K; [reflexivity|]. unfold one_of, mute. apply existsb_exists. exists Newline. split; [cbn; tauto|exact B].
  - destruct (is_k Eof t) eqn:B2; [apply is_k_eq in B2; contradiction|]. rewrite IH by exact F'. now rewrite <- app_assoc.
Qed.
Lemma read_good plugins x : utf8 x -> Forall (Forall lexed) (read plugins x) /\ letters (concat (map tx (concat (read plugins x)))) = letters x.
Proof.
  intros U. destruct (tokens_good plugins 0 (S (length x)) [] x) as (ts & E & C & _ & L & _); [lia|exact U|]. unfold LexerProofs.at_ in E. cbn [app length] in E. unfold read. rewrite E.
  assert (F : Forall (fun t => lexed t /\ tk t <> Eof) (map (InlineSpec.placed x) ts)).
  { clear - L. apply Forall_map. eapply Forall_impl; [|exact L]. intros t H. cbv beta in *. split; [unfold InlineSpec.placed; pose proof (lexeme_lexed plugins _ _ (Info false (t_start t) (match t_start t with O => None | S n => nth_error x n end) 0) H) as K; destruct (t_kind t); exact K|]. unfold InlineSpec.placed. cbn [tk]. intros Z. destruct (t_kind t) eqn:K; try discriminate Z. inversion H as [c k I Ek Ey| |c k n I Ek Ey| | | | | | | | | | | | | | | | | ].
    - cbn [In] in I. repeat (destruct I as [I|I]; [congruence|]). destruct I.
    - cbn [In] in I. repeat (destruct I as [I|I]; [congruence|]). destruct I. }
  split.
  - apply cut_lines_all; [constructor|]. eapply Forall_impl; [|exact F]. now intros t [? _].
  - rewrite cut_lines_letters by exact F. cbn [app]. rewrite map_map. cbn [InlineSpec.placed tx]. change (map (fun t => t_lexeme t) ts) with (map t_lexeme ts). now rewrite C.
Qed.
