(** Specification of attribute lookup, written on the history of assignments alone
    (newest first). No model function is used; only the input/value types are shared. *)
From Verif Require Import Base AttrsModel.

(** names only the embedding job may set *)
Definition spec_job_only (k : string) : Prop :=
  In k ["allow-uri-read"; "max-attribute-value-size"; "max-include-depth"; "doc"; "docdir"; "docfile";
        "docfilesuffix"; "docname"]%string.
(** names a document may only set in its header *)
Definition spec_header_only (k : string) : Prop :=
  In k ["experimental"; "reproducible"; "skip-front-matter"; "lang"; "last-update-label"; "manname-title";
   "nolang"; "toc-title"; "untitled-label"; "version-label"; "app-name"; "author"; "authorinitials";
   "authors"; "copyright"; "doctitle"; "doctype"; "description"; "email"; "firstname"; "keywords";
   "lastname"; "middlename"; "orgname"; "revdate"; "revnumber"; "revremark"; "title"; "copycss";
   "css-signature"; "linkcss"; "stylesdir"; "stylesheet"; "toc-class"; "webfonts"]%string.
(** names only meaningful for books *)
Definition spec_book_only (k : string) : Prop :=
  In k ["chapter-refsig"; "chapter-signifier"; "part-refsig"; "part-signifier"]%string.
(** values that are rejected for some names *)
Definition spec_value_ok (k : string) (v : attr_value) : Prop :=
  (k = "attribute-missing"%string ->
     In v [AStr "skip"; AStr "warn"; AStr "drop"; AStr "drop-line"]) /\
  (k = "attribute-undefined"%string -> In v [AStr "drop"; AStr "drop-line"]) /\
  (k = "showtitle"%string \/ k = "notitle"%string -> exists x, v = ABool x).
(** the value names a document type *)
Definition spec_names_doctype (v : attr_value) (d : doctype) : Prop :=
  v = AStr (match d with Article => "article" | Book => "book" | Manpage => "manpage" | Inline => "inline" end).
(** setting one of these forgets the other in the same layer *)
Definition spec_opposite (k k' : string) : Prop :=
  (k = "showtitle"%string /\ k' = "notitle"%string) \/ (k = "notitle"%string /\ k' = "showtitle"%string).

(** The document type after history [h] (newest first) of a job configured by [s]. *)
Inductive spec_doctype (s : job_settings) : list op -> doctype -> Prop :=
| SD_init : spec_doctype s [] (match js_doctype s with Some d => d | None => Article end)
| SD_set h v d : spec_names_doctype v d -> spec_doctype s (OHeader "doctype" v :: h) d
| SD_bad h v d : (forall d', ~ spec_names_doctype v d') -> spec_doctype s h d ->
    spec_doctype s (OHeader "doctype" v :: h) d
| SD_other h o d : (forall v, o <> OHeader "doctype" v) -> spec_doctype s h d -> spec_doctype s (o :: h) d.

(** Header assignment [k := v] after history [h] is accepted. *)
Definition spec_header_accepts (s : job_settings) (h : list op) (k : string) (v : attr_value) : Prop :=
  ~ spec_job_only k /\ spec_value_ok k v /\
  (k = "doctype"%string -> exists d, spec_names_doctype v d) /\
  (spec_book_only k -> spec_doctype s h Book).
(** Body assignment [k := v] is accepted. *)
Definition spec_body_accepts (k : string) (v : attr_value) : Prop :=
  ~ spec_job_only k /\ ~ spec_header_only k /\ spec_value_ok k v.

(** number of authors in a history *)
Definition spec_authors (h : list op) : nat :=
  length (filter (fun o => match o with OAuthor _ => true | _ => false end) h).

(** what adding the [n]-th author assigns; initials are the first characters of the names *)
Definition spec_fullname (a : author) : string :=
  match middle_name a with
  | Some m => (first_name a ++ " " ++ m ++ " " ++ last_name a)%string
  | None => (first_name a ++ " " ++ last_name a)%string
  end.
Definition char1 (s : string) : string := String.substring 0 1 s.
Definition spec_initials (a : author) : string :=
  match middle_name a with
  | Some m => (char1 (first_name a) ++ char1 m ++ char1 (last_name a))%string
  | None => (char1 (first_name a) ++ char1 (last_name a))%string
  end.
Inductive spec_author_attr (n : nat) (a : author) : string -> string -> Prop :=
| SA_author : spec_author_attr n a ("author_" ++ dec n) (spec_fullname a)
| SA_first : spec_author_attr n a ("firstname_" ++ dec n) (first_name a)
| SA_last : spec_author_attr n a ("lastname_" ++ dec n) (last_name a)
| SA_init : spec_author_attr n a ("authorinitials_" ++ dec n) (spec_initials a)
| SA_middle m : middle_name a = Some m -> spec_author_attr n a ("middlename_" ++ dec n) m
| SA_email e : email a = Some e -> spec_author_attr n a ("email_" ++ dec n) e
| SA_author1 : n = 1 -> spec_author_attr n a "author" (spec_fullname a)
| SA_first1 : n = 1 -> spec_author_attr n a "firstname" (first_name a)
| SA_last1 : n = 1 -> spec_author_attr n a "lastname" (last_name a)
| SA_init1 : n = 1 -> spec_author_attr n a "authorinitials" (spec_initials a)
| SA_middle1 m : n = 1 -> middle_name a = Some m -> spec_author_attr n a "middlename" m
| SA_email1 e : n = 1 -> email a = Some e -> spec_author_attr n a "email" e.

(** [spec_header s h k r]: the header layer maps [k] to [r] after history [h]. *)
Inductive spec_header (s : job_settings) : list op -> string -> option attr_value -> Prop :=
| SH_init_dt d : js_doctype s = Some d ->
    spec_header s [] "doctype" (Some (AStr (doctype_str d)))
| SH_init k : (k = "doctype"%string -> js_doctype s = None) -> spec_header s [] k None
| SH_set h k v : spec_header_accepts s h k v -> spec_header s (OHeader k v :: h) k (Some v)
| SH_forget h k k' v : spec_header_accepts s h k' v -> spec_opposite k' k ->
    spec_header s (OHeader k' v :: h) k None
| SH_other h k k' v r : k' <> k -> ~ spec_opposite k' k -> spec_header s h k r ->
    spec_header s (OHeader k' v :: h) k r
| SH_rejected h k k' v r : ~ spec_header_accepts s h k' v -> spec_header s h k r ->
    spec_header s (OHeader k' v :: h) k r
| SH_author h a k v : spec_author_attr (spec_authors h + 1) a k v ->
    spec_header s (OAuthor a :: h) k (Some (AStr v))
| SH_authors_more h a l : spec_header s h "authors" (Some (AStr l)) ->
    spec_header s (OAuthor a :: h) "authors" (Some (AStr (l ++ ", " ++ spec_fullname a)))
| SH_authors_first h a r : spec_header s h "authors" r -> (forall l, r <> Some (AStr l)) ->
    spec_header s (OAuthor a :: h) "authors" (Some (AStr (spec_fullname a)))
| SH_author_other h a k r : (forall v, ~ spec_author_attr (spec_authors h + 1) a k v) ->
    k <> "authors"%string -> spec_header s h k r -> spec_header s (OAuthor a :: h) k r
| SH_body h k k' v r : spec_header s h k r -> spec_header s (OBody k' v :: h) k r
| SH_clear h k r : spec_header s h k r -> spec_header s (OClear :: h) k r.

(** [spec_body h k r]: the body layer maps [k] to [r] after history [h]. *)
Inductive spec_body : list op -> string -> option attr_value -> Prop :=
| SB_init k : spec_body [] k None
| SB_clear h k : spec_body (OClear :: h) k None
| SB_set h k v : spec_body_accepts k v -> spec_body (OBody k v :: h) k (Some v)
| SB_forget h k k' v : spec_body_accepts k' v -> spec_opposite k' k -> spec_body (OBody k' v :: h) k None
| SB_other h k k' v r : k' <> k -> ~ spec_opposite k' k -> spec_body h k r ->
    spec_body (OBody k' v :: h) k r
| SB_rejected h k k' v r : ~ spec_body_accepts k' v -> spec_body h k r -> spec_body (OBody k' v :: h) k r
| SB_header h k k' v r : spec_body h k r -> spec_body (OHeader k' v :: h) k r
| SB_author h a k r : spec_body h k r -> spec_body (OAuthor a :: h) k r.

(** body beats header beats built-in default *)
Definition spec_layers (rb rh rd : option attr_value) : option attr_value :=
  match rb, rh with Some v, _ => Some v | None, Some v => Some v | None, None => rd end.

(** names whose value is computed, and names the job itself always defines *)
Definition spec_derived (k : string) : Prop :=
  In k ["doctype-article"; "doctype-book"; "doctype-inline"; "doctype-manpage"]%string.
Definition spec_reserved (k : string) : Prop :=
  spec_derived k \/
  In k ["doctype"; "safe-mode-level"; "safe-mode-name"; "safe-mode-unsafe"; "safe-mode-safe";
        "safe-mode-server"; "safe-mode-secure"]%string.

(** what the job says about [k] (last entry wins, given as "the" entry of the settings) *)
Definition spec_job (s : job_settings) (k : string) : option job_attr :=
  if String.eqb k "doctype" then
    Some (match js_doctype s with
          | Some d => readonly (AStr (doctype_str d))
          | None => modifiable (AStr "article")
          end)
  else if String.eqb k "safe-mode-name" then
    Some (readonly (AStr (match js_safe s with Unsafe => "UNSAFE" | Safe => "SAFE" | Server => "SERVER" | Secure => "SECURE" end)))
  else if String.eqb k "safe-mode-level" then
    Some (readonly (AStr (match js_safe s with Unsafe => "0" | Safe => "1" | Server => "10" | Secure => "20" end)))
  else if String.eqb k (match js_safe s with Unsafe => "safe-mode-unsafe" | Safe => "safe-mode-safe"
                       | Server => "safe-mode-server" | Secure => "safe-mode-secure" end) then
    Some (readonly (ABool true))
  else aget (js_job s) k.

(** The built-in intrinsic and caption attributes the AsciiDoc documentation promises. *)
Definition documented_builtins : list (string * string) :=
  [("empty", ""); ("blank", ""); ("sp", " "); ("nbsp", "&#160;"); ("zwsp", "&#8203;"); ("wj", "&#8288;");
   ("apos", "&#39;"); ("quot", "&#34;"); ("lsquo", "&#8216;"); ("rsquo", "&#8217;");
   ("ldquo", "&#8220;"); ("rdquo", "&#8221;"); ("deg", "&#176;"); ("plus", "&#43;");
   ("brvbar", "&#166;"); ("vbar", "|"); ("amp", "&"); ("lt", "<"); ("gt", ">");
   ("startsb", "["); ("endsb", "]"); ("caret", "^"); ("asterisk", "*"); ("tilde", "~");
   ("backslash", "\"); ("backtick", "`"); ("two-colons", "::"); ("two-semicolons", ";;");
   ("cpp", "C++"); ("pp", "&#43;&#43;");
   ("attribute-missing", "skip"); ("attribute-undefined", "drop-line");
   ("note-caption", "Note"); ("tip-caption", "Tip"); ("important-caption", "Important");
   ("caution-caption", "Caution"); ("warning-caption", "Warning");
   ("example-caption", "Example"); ("figure-caption", "Figure"); ("table-caption", "Table");
   ("appendix-caption", "Appendix"); ("appendix-refsig", "Appendix"); ("chapter-refsig", "Chapter");
   ("part-refsig", "Part"); ("section-refsig", "Section"); ("last-update-label", "Last updated");
   ("toc-title", "Table of Contents"); ("untitled-label", "Untitled"); ("version-label", "Version");
   ("copycss", ""); ("stylesdir", "."); ("iconsdir", "./images/icons"); ("stylesheet", "");
   ("webfonts", "")]%string.
