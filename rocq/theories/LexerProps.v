(** C14: lexing is lossless, total and located. *)
From Verif Require Import Base Utf8 LexerModel LexerSpec LexerProofs LexerMoreProofs.

(** Running the lexer over a valid UTF-8 text produces, within [length s] steps and without a panic, non-empty tokens
    whose texts concatenate to the source and whose locations tile [0, length s). *)
Theorem C14_lossless plugins s : utf8 s ->
  exists ts, tokens plugins (S (length s)) (mkLexer s 0 0) = Ret (Some ts) /\
    concat (map t_lexeme ts) = s /\ contiguous 0 (length s) ts /\
    Forall (fun t => t_lexeme t <> [] /\ t_end t = t_start t + length (t_lexeme t)) ts.
Proof.
  intro U. destruct (tokens_good plugins 0 (S (length s)) [] s) as (ts & E & C & G & _ & N & _); [lia|exact U|].
  exists ts. cbn [length Nat.add] in G. rewrite Nat.add_0_r in G. repeat split; assumption.
Qed.
Print Assumptions C14_lossless.

(** Every token's text has the shape its kind promises. *)
Theorem C14_kinds plugins s ts : utf8 s -> tokens plugins (S (length s)) (mkLexer s 0 0) = Ret (Some ts) ->
  Forall (fun t => lexeme_of plugins (t_kind t) (t_lexeme t)) ts.
Proof.
  intros U E. destruct (tokens_good plugins 0 (S (length s)) [] s) as (ts' & E' & _ & _ & L & _); [lia|exact U|].
  unfold at_ in E'. cbn [app length] in E'. rewrite E in E'. injection E' as ->. exact L.
Qed.
Print Assumptions C14_kinds.

(** Tokens that depend on their surroundings stand where they may: delimiter lines fill a line, term delimiters do not begin
    one and are followed by a blank, attribute references and entities are not escaped, runs are maximal. *)
Theorem C14_placement plugins s ts : utf8 s -> tokens plugins (S (length s)) (mkLexer s 0 0) = Ret (Some ts) ->
  well_placed [] ts.
Proof.
  intros U E. destruct (tokens_good plugins 0 (S (length s)) [] s) as (ts' & E' & _ & _ & _ & _ & P); [lia|exact U|].
  unfold at_ in E'. cbn [app length] in E'. rewrite E in E'. injection E' as ->. exact P.
Qed.
Print Assumptions C14_placement.

(** A newline byte is only ever inside a Newline token: no other token spans two lines. *)
Theorem C14_newlines plugins s ts t : utf8 s -> (forall p, In p plugins -> ~ In newline p) ->
  tokens plugins (S (length s)) (mkLexer s 0 0) = Ret (Some ts) -> In t ts -> t_kind t <> Newline -> ~ In newline (t_lexeme t).
Proof.
  intros U PL E I K. pose proof (C14_kinds plugins s ts U E) as F. rewrite Forall_forall in F.
  exact (lexeme_no_newline plugins _ _ PL (F t I) K).
Qed.
Print Assumptions C14_newlines.

(** An unescaped [{name}] anywhere in a source is read as one attribute reference. *)
Theorem C14_attr_ref_recognised plugins before name after o :
  last (map Some before) None <> Some "\"%char -> name <> [] -> all_of name_byte name ->
  let l := $"{" ++ name ++ $"}" in
  next_token plugins (mkLexer (before ++ l ++ after) (length before) o) =
    Ret (Some (mkToken AttrRef (length before + o) (length before + length l + o) l),
         mkLexer ((before ++ l) ++ after) (length (before ++ l)) o).
Proof. exact (recognise_attr_ref plugins before name after o). Qed.
Print Assumptions C14_attr_ref_recognised.

(** A directive name followed by [::] and at least three more bytes, the first not blank, is read as a directive. *)
Theorem C14_directive_recognised plugins before name c after o :
  In name [$"include"; $"ifdef"; $"ifndef"; $"endif"; $"ifeval"; $"asciidorkinclude"] ->
  ~ In c ((" "%char) :: map ascii_of_nat [9; 10; 12; 13]) -> 2 <= length after ->
  let l := name ++ $"::" in
  next_token plugins (mkLexer (before ++ l ++ c :: after) (length before) o) =
    Ret (Some (mkToken Directive (length before + o) (length before + length l + o) l),
         mkLexer ((before ++ l) ++ c :: after) (length (before ++ l)) o).
Proof. exact (recognise_directive plugins before name c after o). Qed.
Print Assumptions C14_directive_recognised.

(** The three bytes are needed: an [endif::[]] that ends the source without a newline is not read as a directive. *)
Theorem C14_final_endif_refuted : exists before after,
  (exists ts, tokens [] 100 (mkLexer (before ++ $"endif::" ++ after) 0 0) = Ret (Some ts) /\
     ~ exists t, In t ts /\ t_kind t = Directive) /\ before = [] /\ after = $"[]".
Proof.
  exists [], ($"[]"). split; [|split; reflexivity]. eexists. split; [vm_compute; reflexivity|].
  intros (t & I & K). cbn in I. repeat (destruct I as [<-|I]; [discriminate K|]). exact I.
Qed.
Print Assumptions C14_final_endif_refuted.

(** A whole-line block delimiter is read as one delimiter token. *)
Theorem C14_delimiter_recognised plugins before s after o :
  In s [$"--"; $"****"; $"____"; $"----"; $"++++"; $"...."; $"////"] \/ (exists n, s = $"====" ++ repeat "="%char n) ->
  line_begins (last (map Some before) None) -> ends_line after ->
  next_token plugins (mkLexer (before ++ s ++ after) (length before) o) =
    Ret (Some (mkToken DelimiterLine (length before + o) (length before + length s + o) s),
         mkLexer ((before ++ s) ++ after) (length (before ++ s)) o).
Proof. exact (recognise_delimiter plugins before s after o). Qed.
Print Assumptions C14_delimiter_recognised.

(** Callout numbers, decimal entities, URI schemes and macro names are read as such wherever they stand. *)
Theorem C14_callout_recognised plugins before d after o : d <> [] -> all_of is_digit d ->
  let l := $"<" ++ d ++ $">" in
  next_token plugins (mkLexer (before ++ l ++ after) (length before) o) =
    Ret (Some (mkToken CalloutNumber (length before + o) (length before + length l + o) l),
         mkLexer ((before ++ l) ++ after) (length (before ++ l)) o).
Proof. exact (recognise_callout plugins before d after o). Qed.
Print Assumptions C14_callout_recognised.
Theorem C14_entity_recognised plugins before d after o :
  last (map Some before) None <> Some "\"%char -> d <> [] -> all_of is_digit d ->
  let l := $"&#" ++ d ++ $";" in
  next_token plugins (mkLexer (before ++ l ++ after) (length before) o) =
    Ret (Some (mkToken Entity (length before + o) (length before + length l + o) l),
         mkLexer ((before ++ l) ++ after) (length (before ++ l)) o).
Proof. exact (recognise_entity plugins before d after o). Qed.
Print Assumptions C14_entity_recognised.
Theorem C14_uri_recognised plugins before s after o :
  In s [$"http://"; $"https://"; $"ftp://"; $"mailto://"; $"irc://"; $"file:///"] ->
  next_token plugins (mkLexer (before ++ s ++ after) (length before) o) =
    Ret (Some (mkToken UriScheme (length before + o) (length before + length s + o) s),
         mkLexer ((before ++ s) ++ after) (length (before ++ s)) o).
Proof. exact (recognise_uri plugins before s after o). Qed.
Print Assumptions C14_uri_recognised.
Theorem C14_macro_recognised plugins before s c after o :
  In s [$"footnote"; $"image"; $"indexterm"; $"indexterm2"; $"anchor"; $"audio"; $"icon"; $"kbd";
        $"link"; $"pass"; $"btn"; $"menu"; $"mailto"; $"toc"; $"xref"; $"video"] ->
  c <> ":"%char -> c <> "/"%char ->
  let l := s ++ $":" in
  next_token plugins (mkLexer (before ++ l ++ c :: after) (length before) o) =
    Ret (Some (mkToken MacroName (length before + o) (length before + length l + o) l),
         mkLexer ((before ++ l) ++ c :: after) (length (before ++ l)) o).
Proof. exact (recognise_macro plugins before s c after o). Qed.
Print Assumptions C14_macro_recognised.

(** Without valid UTF-8 (an included file is read as bytes) lexing can panic. *)
Theorem C14_invalid_utf8_refuted : exists s, tokens [] (S (length s)) (mkLexer s 0 0) = Panic.
Proof. exists [ascii_of_nat 255]. vm_compute. reflexivity. Qed.
Print Assumptions C14_invalid_utf8_refuted.

(** The end of the input is not stable: asking for a token there moves the position past the end, so a second
    "is this the end" test by position gives a different answer. *)
Theorem C14_end_moves_refuted : exists s l, next_token [] (mkLexer s (length s) 0) = Ret (None, l) /\ pos l <> length s.
Proof. exists ($"ab"). eexists. split; [vm_compute; reflexivity|]. cbn. discriminate. Qed.
Print Assumptions C14_end_moves_refuted.

Example C14_ex_text : exists ts,
  utf8 ($"*bold* {a} <1> joe@foo.com" ++ [newline] ++ $"----" ++ [newline] ++ $"x:: y" ++ [newline]) /\
  tokens [] 100 (mkLexer ($"*bold* {a} <1> joe@foo.com" ++ [newline] ++ $"----" ++ [newline] ++ $"x:: y" ++ [newline]) 0 0) = Ret (Some ts) /\
  map t_kind ts = [Star; Word; Star; Whitespace; AttrRef; Whitespace; CalloutNumber; Whitespace; MaybeEmail; Newline;
                   DelimiterLine; Newline; Word; TermDelimiter; Whitespace; Word; Newline].
Proof. eexists. split; [apply is_utf8_spec; reflexivity|]. split; vm_compute; reflexivity. Qed.
Example C14_ex_directive : exists t l, next_token [] (mkLexer ($"a" ++ [newline] ++ $"endif::[]" ++ [newline]) 2 0) = Ret (Some t, l) /\ t_kind t = Directive.
Proof. eexists. eexists. vm_compute. split; reflexivity. Qed.
