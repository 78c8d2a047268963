(** C31: text written into HTML. *)
From Verif Require Import Base EscapeModel EscapeSpec EscapeProofs.

(** No markup character is written, for any text; with quotes escaped no quote either. *)
Theorem C31_no_markup : forall quotes s, ~ In "<"%char (push_escaped quotes s) /\ ~ In ">"%char (push_escaped quotes s) /\ (quotes = true -> ~ In dquote (push_escaped quotes s) /\ ~ In "'"%char (push_escaped quotes s)).
Proof. intros q s. split; [|split; [|intro Q; split]]; intro I; apply no_markup in I; destruct I as (A & B & C); try contradiction; destruct (C Q); contradiction. Qed.
Print Assumptions C31_no_markup.
(** So an attribute is one quoted value, whatever the value: between the two quotes there is none. *)
Theorem C31_attribute_closed : forall name value, exists v, html_attr name value = $" " ++ name ++ $"=" ++ [dquote] ++ v ++ [dquote] /\ ~ In dquote v.
Proof. intros name value. exists (push_escaped true value). split; [reflexivity|]. apply (C31_no_markup true value). reflexivity. Qed.
Print Assumptions C31_attribute_closed.
(** Reading the references back gives the text. *)
Theorem C31_reads_back : forall quotes s, no_character_cut s -> unescape (push_escaped quotes s) = s.
Proof. intros q s S. rewrite <- (esc_nil q s). apply unescape_esc. rewrite app_nil_r. exact S. Qed.
Print Assumptions C31_reads_back.
Theorem C31_reads_back_ascii : forall quotes s, ascii_only s -> unescape (push_escaped quotes s) = s.
Proof.
  intros q s A. apply C31_reads_back. intros pre rest c -> N I. unfold ascii_only in A. rewrite Forall_forall in A. apply nth_error_In in N.
  specialize (A c). unfold inner_byte in I. assert (In c (pre ++ $"&#" ++ rest)) by (apply in_or_app; right; apply in_or_app; right; exact N). specialize (A H). lia.
Qed.
Print Assumptions C31_reads_back_ascii.
(** Different texts are never written the same way. *)
Theorem C31_injective : forall quotes s t, no_character_cut s -> no_character_cut t -> push_escaped quotes s = push_escaped quotes t -> s = t.
Proof. intros q s t S T E. rewrite <- (C31_reads_back q s S), <- (C31_reads_back q t T), E. reflexivity. Qed.
Print Assumptions C31_injective.
(** Numeric references of at most six characters are left as they are, and the rest is escaped around them. *)
Theorem C31_short_references_kept : forall quotes pre ref post, short_ref ref -> no_character_cut (pre ++ ref ++ post) ->
  exists before, push_escaped quotes (pre ++ ref ++ post) = before ++ ref ++ push_escaped quotes post /\ unescape before = pre.
Proof.
  intros q pre r post R S. exists (esc q pre (r ++ post)). split; [|apply unescape_esc, S]. rewrite push_esc, (push_ref q r post R); [reflexivity|]. exact (cut_app pre _ S).
Qed.
Print Assumptions C31_short_references_kept.
Example C31_sample : push_escaped true ($"a<b & 'c' &#169; &#xA9;") = $"a&lt;b &amp; &#8217;c&#8217; &#169; &#xA9;" /\ short_ref ($"&#169;") /\ short_ref ($"&#xA9;") /\ ascii_only ($"a<b & 'c' &#169; &#xA9;").
Proof.
  split; [vm_compute; reflexivity|]. split; [split; [apply (nr_dec ($"169")); [discriminate|repeat constructor; unfold is_dec; cbn; tauto]|cbn; lia]|].
  split; [split; [apply (nr_hex ($"A9")); [discriminate|repeat constructor; unfold is_hex; cbn; tauto]|cbn; lia]|]. unfold ascii_only. repeat (constructor; [apply Nat.ltb_lt; reflexivity|]). constructor.
Qed.

(** Spaces and commas in the parts of a mailto link. *)
Theorem C31_url_clean : forall s, ~ In " "%char (push_url_encoded s) /\ ~ In ","%char (push_url_encoded s).
Proof. intro s. split; intro I; apply url_clean in I; destruct I; contradiction. Qed.
Print Assumptions C31_url_clean.
Theorem C31_url_reads_back : forall s, ~ In "%"%char s -> url_decode (push_url_encoded s) = s.
Proof. intros s P. apply url_back; [exact P|apply url_length]. Qed.
Print Assumptions C31_url_reads_back.
Example C31_url_sample : push_url_encoded ($"a, b") = $"a%2C%20b" /\ ~ In "%"%char ($"a, b").
Proof. split; [reflexivity|]. cbn. intros H. repeat (destruct H as [H|H]; [discriminate|]). destruct H. Qed.

(** A longer numeric reference, such as the right quote that the code itself writes, is escaped and shows as text. *)
Theorem C31_long_reference_escaped_refuted : numeric_ref ($"&#8217;") /\ push_escaped false ($"&#8217;") = $"&amp;#8217;".
Proof. split; [apply (nr_dec ($"8217")); [discriminate|repeat constructor; unfold is_dec; cbn; tauto]|vm_compute; reflexivity]. Qed.
Print Assumptions C31_long_reference_escaped_refuted.
(** An ampersand is lost when a character lies across the sixth byte after it: "&#123" followed by an e with an accent. *)
Theorem C31_ampersand_lost_refuted : push_escaped false ($"&#123" ++ ["195"%char; "169"%char]) = $"#123" ++ ["195"%char; "169"%char].
Proof. vm_compute. reflexivity. Qed.
Print Assumptions C31_ampersand_lost_refuted.
(** An ampersand that is not part of a reference is left if a reference follows at once: the test looks for one anywhere in the six bytes. *)
Theorem C31_bare_ampersand_refuted : push_escaped false ($"&#&#1;") = $"&#&#1;".
Proof. vm_compute. reflexivity. Qed.
Print Assumptions C31_bare_ampersand_refuted.
(** The subject of a mailto link can close the attribute it is written into; and two subjects are written the same way. *)
Theorem C31_url_quote_refuted : In dquote (push_url_encoded ($"a" ++ [dquote])) /\ push_url_encoded ($"a%20b") = push_url_encoded ($"a b").
Proof. split; [cbn; tauto|vm_compute; reflexivity]. Qed.
Print Assumptions C31_url_quote_refuted.
