(** What it means that a text is shown as it is written. *)
From Verif Require Import InlineModel InlineSpec.

(** Nodes that are only text, line feeds and the three characters HTML must escape, and what they read. When [escaped], each of these characters is a node of its own (which is how it gets escaped);
    otherwise each of them is left in the text. *)
Definition special_char (k : special_kind) : ascii := match k with SAmpersand => "&"%char | SLessThan => "<"%char | SGreaterThan => ">"%char end.
Definition harmless (x : bytes) : Prop := forall k, ~ In (special_char k) x.
Inductive reads (escaped : bool) : list inode -> bytes -> Prop :=
| reads_nil : reads escaped [] []
| reads_text x ns y : (escaped = true -> harmless x) -> reads escaped ns y -> reads escaped (NText x :: ns) (x ++ y)
| reads_newline ns y : reads escaped ns y -> reads escaped (NNewline :: ns) (LF :: y)
| reads_special k ns y : escaped = true -> reads escaped ns y -> reads escaped (NSpecial k :: ns) (special_char k :: y).

(** Tokens of kind [x] twice, and after them tokens of kind [y] twice. *)
Definition doubled (x y : kind) (l : list tok) : Prop :=
  exists a t1 t2 b t3 t4 c, l = a ++ t1 :: t2 :: b ++ t3 :: t4 :: c /\ tk t1 = x /\ tk t2 = x /\ tk t3 = y /\ tk t4 = y.
Definition ends_in (ks : list kind) (l : list tok) : Prop := exists a b, l = a ++ b /\ map tk b = ks.
Definition has (k : kind) (l : list tok) : Prop := exists t, In t l /\ tk t = k.
(** The characters that are shown escaped are the tokens of these kinds. *)
Definition special_text (t : tok) : Prop :=
  match tk t with Ampersand => tx t = $"&" | LessThan => tx t = $"<" | GreaterThan => tx t = $">" | _ => harmless (tx t) end.
(** `&#12;` *)
Definition char_ref (l : list tok) : Prop := exists a b c, l = a ++ b ++ c /\ map tk b = [Ampersand; Hash; Digits; SemiColon].

(** A line with nothing in it that the parser does not leave alone: no backslash, no callout; no `<<` with `>>` after it, no `[[` with `]]` after it; no ` +` and no white space at
    its end; no `pass:`; and if `&`, `<` and `>` are to be escaped, no entity and no `&#12;`. *)
Record left_alone (escaped : bool) (ts : list tok) : Prop := {
  kinds : forall k, In k [Backslash; CalloutNumber; AttrPassDbl; PreprocPassthru; Discard; Newline] -> ~ has k ts;
  no_ref : escaped = true -> ~ char_ref ts;
  no_xref : ~ doubled LessThan GreaterThan ts;
  no_anchor : ~ doubled OpenBracket CloseBracket ts;
  no_break : ~ ends_in [Whitespace; Plus] ts;
  no_space : ~ ends_in [Whitespace] ts;
  no_pass : forall t, In t ts -> tk t = MacroName -> tx t <> $"pass:";
  specials : escaped = true -> Forall special_text ts
}.
(** Before each plus sign is white space, or it starts the line. *)
Fixpoint plus_spaced (before : option kind) (ts : list tok) : Prop :=
  match ts with [] => True | t :: r => (tk t = Plus -> before = None \/ before = Some Whitespace) /\ plus_spaced (Some (tk t)) r end.
Definition comment_line (ts : list tok) : Prop := exists t r, ts = t :: r /\ tk t = ForwardSlashes /\ length (tx t) = 2.
(** The substitutions of a listing, of a passthrough block, and of inline passthroughs: the text is not formatted, and has no macros, no replacements and no attribute references. *)
Definition literal_subs (sb : subs) : Prop := contains sb InlineFormatting = false /\ contains sb Macros = false /\ contains sb CharReplacement = false /\ contains sb AttrRefs = false.
(** The text as it was written: a reference to an attribute is a token with the reference, and after it are, at the same place in the source, the tokens of the attribute's value. *)
Fixpoint written (value_at : option nat) (ts : list tok) : bytes :=
  match ts with
  | [] => []
  | t :: r => if match value_at with Some n => at_ (inf t) =? n | None => false end then written value_at r
              else tx t ++ written (if is_k AttrRef t then Some (at_ (inf t)) else None) r
  end.
(** A number of steps that is enough for these lines. *)
Definition fuel_of (lss : list (list tok)) : nat := S (list_sum (map (fun ts => 4 + length ts) lss)).
(** The lines of a verbatim text: each is left alone; no line is taken for the end of the text by what is around it (a list, a table cell, a delimited block); and where callouts are off, no line is a comment. *)
Definition verbatim_lines (E : env) (sb : subs) (lss : list (list tok)) : Prop :=
  Forall (fun ts => left_alone (contains sb SpecialChars) ts /\ plus_spaced None ts /\ (forall l, toks l = ts -> stops E l = false) /\ (contains sb Callouts = false -> ~ comment_line ts)) lss.
