(** Model of core/src/{attrs,validate,job_attrs,document_meta,job_settings,doctype,types}.rs.
    Attribute maps (Rust HashMap) are association lists read first-match; only lookups
    are observable, iteration order is not modelled. *)
From Verif Require Import Base.

(** core/src/attrs.rs:5-9 *)
Inductive attr_value := AStr (s : string) | ABool (v : bool).

(** core/src/attrs.rs:12-14 *)
Definition is_true (v : attr_value) : bool := match v with ABool true => true | _ => false end.
(** core/src/attrs.rs:16-18 *)
Definition is_false (v : attr_value) : bool := match v with ABool false => true | _ => false end.
(** core/src/attrs.rs:20-26 *)
Definition av_str (v : attr_value) : option string :=
  match v with AStr s => Some s | ABool true => Some ""%string | ABool false => None end.

(** core/src/attrs.rs:110, core/src/job_attrs.rs:23 (lines relative to each file): HashMap<String, _> *)
Definition amap (A : Type) := list (string * A).

(** HashMap::get — core/src/attrs.rs:124-128, core/src/job_attrs.rs:42-44 *)
Fixpoint aget {A} (m : amap A) (k : string) : option A :=
  match m with
  | [] => None
  | (k', v) :: r => if String.eqb k' k then Some v else aget r k
  end.
(** HashMap::remove — core/src/attrs.rs:214-218, core/src/job_attrs.rs:46-48 *)
Definition aremove {A} (m : amap A) (k : string) : amap A :=
  filter (fun e => negb (String.eqb (fst e) k)) m.
(** HashMap::insert *)
Definition aput {A} (m : amap A) (k : string) (v : A) : amap A := (k, v) :: aremove m k.

(** core/src/validate.rs:9-14 and 23-52: is the value legal for the key *)
Definition one_of (options : list string) (v : attr_value) : bool :=
  match v with AStr s => existsb (String.eqb s) options | ABool _ => false end.
Definition must_be_bool (v : attr_value) : bool := match v with ABool _ => true | AStr _ => false end.
Definition legal_value (k : string) (v : attr_value) : bool :=
  if String.eqb k "attribute-missing" then one_of ["skip"; "warn"; "drop"; "drop-line"]%string v
  else if String.eqb k "attribute-undefined" then one_of ["drop"; "drop-line"]%string v
  else if String.eqb k "showtitle" || String.eqb k "notitle" then must_be_bool v
  else true.

(** core/src/validate.rs:3-21: the [?] returns before any removal *)
Definition validate_attr {A} (m : amap A) (k : string) (v : attr_value) : amap A * bool :=
  if legal_value k v then
    if String.eqb k "showtitle" then (aremove m "notitle"%string, true)
    else if String.eqb k "notitle" then (aremove m "showtitle"%string, true)
    else (m, true)
  else (m, false).

(** core/src/attrs.rs:198-203 — [true] is [Ok(())] *)
Definition attrs_insert (m : amap attr_value) (k : string) (v : attr_value) : amap attr_value * bool :=
  let (m', ok) := validate_attr m k v in
  if ok then (aput m' k v, true) else (m', false).

(** core/src/job_attrs.rs:6-10 *)
Record job_attr := { ja_readonly : bool; ja_value : attr_value }.
Definition readonly (v : attr_value) := {| ja_readonly := true; ja_value := v |}.
Definition modifiable (v : attr_value) := {| ja_readonly := false; ja_value := v |}.

(** core/src/job_attrs.rs:30-35 *)
Definition job_insert (m : amap job_attr) (k : string) (j : job_attr) : amap job_attr * bool :=
  let (m', ok) := validate_attr m k (ja_value j) in
  if ok then (aput m' k j, true) else (m', false).
(** core/src/job_attrs.rs:37-40 *)
Definition job_insert_unchecked (m : amap job_attr) (k : string) (j : job_attr) : amap job_attr := aput m k j.

(** core/src/doctype.rs:6-13 *)
Inductive doctype := Article | Book | Manpage | Inline.
Definition doctype_eqb (x y : doctype) : bool :=
  match x, y with
  | Article, Article | Book, Book | Manpage, Manpage | Inline, Inline => true
  | _, _ => false
  end.
(** core/src/doctype.rs:16-23 *)
Definition doctype_str (d : doctype) : string :=
  match d with Article => "article" | Book => "book" | Manpage => "manpage" | Inline => "inline" end.
(** core/src/doctype.rs:32-43 *)
Definition doctype_parse (s : string) : option doctype :=
  if String.eqb s "article" then Some Article
  else if String.eqb s "book" then Some Book
  else if String.eqb s "manpage" then Some Manpage
  else if String.eqb s "inline" then Some Inline
  else None.

(** core/src/types.rs:3-10 *)
Inductive safe_mode := Unsafe | Safe | Server | Secure.

(** core/src/types.rs:33-39 *)
Record author := { first_name : string; middle_name : option string; last_name : string; email : option string }.
(** core/src/types.rs:42-52 *)
Definition fullname (a : author) : string :=
  (first_name a ++ (match middle_name a with Some m => " " ++ m | None => "" end) ++ " " ++ last_name a)%string.
(** first char of a string; bytes stand for chars (simplification: names are ASCII here) *)
Definition first_char (s : string) : option string :=
  match s with EmptyString => None | String c _ => Some (String c EmptyString) end.
(** core/src/types.rs:54-62; the two [unwrap]s panic on an empty first or last name *)
Definition initials (a : author) : outcome string :=
  match first_char (first_name a), first_char (last_name a) with
  | Some f, Some l =>
      let m := match middle_name a with
               | Some m => match first_char m with Some c => c | None => ""%string end
               | None => ""%string
               end in
      Ret (f ++ m ++ l)%string
  | _, _ => Panic
  end.

(** core/src/document_meta.rs:253-266 *)
Definition JOB_ONLY : list string :=
  ["allow-uri-read"; "max-attribute-value-size"; "max-include-depth"; "doc"; "docdir"; "docfile";
   "docfilesuffix"; "docname"]%string.
(** core/src/document_meta.rs:268-308 *)
Definition HEADER_ONLY : list string :=
  ["experimental"; "reproducible"; "skip-front-matter"; "lang"; "last-update-label"; "manname-title";
   "nolang"; "toc-title"; "untitled-label"; "version-label"; "app-name"; "author"; "authorinitials";
   "authors"; "copyright"; "doctitle"; "doctype"; "description"; "email"; "firstname"; "keywords";
   "lastname"; "middlename"; "orgname"; "revdate"; "revnumber"; "revremark"; "title"; "copycss";
   "css-signature"; "linkcss"; "stylesdir"; "stylesheet"; "toc-class"; "webfonts"]%string.
Definition mem (k : string) (l : list string) : bool := existsb (String.eqb k) l.

(** core/src/attrs.rs:135-196 *)
Definition default_attrs : amap attr_value :=
  map (fun e => (fst e, AStr (snd e)))
  [("empty", ""); ("blank", ""); ("attribute-missing", "skip"); ("attribute-undefined", "drop-line");
   ("appendix-caption", "Appendix"); ("appendix-refsig", "Appendix"); ("caution-caption", "Caution");
   ("chapter-refsig", "Chapter"); ("example-caption", "Example"); ("figure-caption", "Figure");
   ("important-caption", "Important"); ("last-update-label", "Last updated"); ("note-caption", "Note");
   ("part-refsig", "Part"); ("section-refsig", "Section"); ("table-caption", "Table");
   ("tip-caption", "Tip"); ("toc-title", "Table of Contents"); ("untitled-label", "Untitled");
   ("version-label", "Version"); ("warning-caption", "Warning"); ("sp", " "); ("nbsp", "&#160;");
   ("zwsp", "&#8203;"); ("wj", "&#8288;"); ("apos", "&#39;"); ("quot", "&#34;"); ("lsquo", "&#8216;");
   ("rsquo", "&#8217;"); ("ldquo", "&#8220;"); ("rdquo", "&#8221;"); ("deg", "&#176;");
   ("plus", "&#43;"); ("brvbar", "&#166;"); ("vbar", "|"); ("amp", "&"); ("lt", "<"); ("gt", ">");
   ("startsb", "["); ("endsb", "]"); ("caret", "^"); ("asterisk", "*"); ("tilde", "~");
   ("backslash", "\"); ("backtick", "`"); ("two-colons", "::"); ("two-semicolons", ";;");
   ("cpp", "C++"); ("pp", "&#43;&#43;"); ("copycss", ""); ("stylesdir", ".");
   ("iconsdir", "./images/icons"); ("stylesheet", ""); ("webfonts", "")]%string.

(** core/src/document_meta.rs:6-17. [included_files] and [data_admonition_icons] are not modelled:
    no modelled method reads or writes them. *)
Record meta := {
  m_authors : list author;
  m_doctype : doctype;
  m_job : amap job_attr;
  m_doc : amap attr_value;
  m_default : amap attr_value;
  m_header : amap attr_value;
  m_safe : safe_mode;
  m_embedded : bool
}.

Definition with_header (m : meta) h :=
  {| m_authors := m_authors m; m_doctype := m_doctype m; m_job := m_job m; m_doc := m_doc m;
     m_default := m_default m; m_header := h; m_safe := m_safe m; m_embedded := m_embedded m |}.
Definition with_doc (m : meta) d :=
  {| m_authors := m_authors m; m_doctype := m_doctype m; m_job := m_job m; m_doc := d;
     m_default := m_default m; m_header := m_header m; m_safe := m_safe m; m_embedded := m_embedded m |}.
Definition with_job (m : meta) j :=
  {| m_authors := m_authors m; m_doctype := m_doctype m; m_job := j; m_doc := m_doc m;
     m_default := m_default m; m_header := m_header m; m_safe := m_safe m; m_embedded := m_embedded m |}.
Definition with_doctype (m : meta) d :=
  {| m_authors := m_authors m; m_doctype := d; m_job := m_job m; m_doc := m_doc m;
     m_default := m_default m; m_header := m_header m; m_safe := m_safe m; m_embedded := m_embedded m |}.
Definition with_authors (m : meta) a :=
  {| m_authors := a; m_doctype := m_doctype m; m_job := m_job m; m_doc := m_doc m;
     m_default := m_default m; m_header := m_header m; m_safe := m_safe m; m_embedded := m_embedded m |}.
Definition with_embedded (m : meta) e :=
  {| m_authors := m_authors m; m_doctype := m_doctype m; m_job := m_job m; m_doc := m_doc m;
     m_default := m_default m; m_header := m_header m; m_safe := m_safe m; m_embedded := e |}.

(** core/src/document_meta.rs:37-66 *)
Definition safe_mode_flag (s : safe_mode) : string :=
  match s with Unsafe => "safe-mode-unsafe" | Safe => "safe-mode-safe"
             | Server => "safe-mode-server" | Secure => "safe-mode-secure" end.
Definition safe_mode_level (s : safe_mode) : string :=
  match s with Unsafe => "0" | Safe => "1" | Server => "10" | Secure => "20" end.
Definition safe_mode_name (s : safe_mode) : string :=
  match s with Unsafe => "UNSAFE" | Safe => "SAFE" | Server => "SERVER" | Secure => "SECURE" end.
Definition meta_new (s : safe_mode) (job : amap job_attr) : meta :=
  let job := job_insert_unchecked job (safe_mode_flag s) (readonly (ABool true)) in
  let job := job_insert_unchecked job "safe-mode-level" (readonly (AStr (safe_mode_level s))) in
  let job := job_insert_unchecked job "safe-mode-name" (readonly (AStr (safe_mode_name s))) in
  {| m_authors := []; m_doctype := Article; m_job := job; m_doc := []; m_default := default_attrs;
     m_header := []; m_safe := s; m_embedded := false |}.

(** core/src/document_meta.rs:68-72 *)
Definition remove_attr (m : meta) (k : string) : meta :=
  with_job (with_doc (with_header m (aremove (m_header m) k)) (aremove (m_doc m) k)) (aremove (m_job m) k).

(** core/src/document_meta.rs:188-194; the [unwrap] cannot fail: "doctype" has no value restriction
    (see [set_doctype_never_panics] in AttrsProofs.v) *)
Definition set_doctype (m : meta) (d : doctype) : meta :=
  let m := with_doctype m d in
  with_header m (fst (attrs_insert (m_header m) "doctype" (AStr (doctype_str d)))).

(** core/src/document_meta.rs:74-86 *)
Definition clone_for_cell (m : meta) : meta :=
  let m := set_doctype m Article in
  let m := remove_attr m "toc" in
  let m := remove_attr m "toc-placement" in
  let m := remove_attr m "toc-position" in
  let m := remove_attr m "showtitle" in
  remove_attr m "notitle".

(** core/src/document_meta.rs:92-94: the result is discarded *)
Definition insert_string_attr (m : meta) (k v : string) : meta :=
  with_header m (fst (attrs_insert (m_header m) k (AStr v))).
Definition insert_string_opt (m : meta) (k : string) (v : option string) : meta :=
  match v with Some v => insert_string_attr m k v | None => m end.

(** core/src/document_meta.rs:96-129 *)
Definition add_author (m : meta) (a : author) : outcome meta :=
  match initials a with
  | Panic => Panic
  | Ret ini =>
    let m :=
      if match m_authors m with [] => true | _ => false end then
        let m := insert_string_attr m "author" (fullname a) in
        let m := insert_string_opt m "email" (email a) in
        let m := insert_string_attr m "lastname" (last_name a) in
        let m := insert_string_opt m "middlename" (middle_name a) in
        let m := insert_string_attr m "firstname" (first_name a) in
        insert_string_attr m "authorinitials" ini
      else m in
    let n := dec (length (m_authors m) + 1) in
    let m := insert_string_attr m ("author_" ++ n)%string (fullname a) in
    let m := insert_string_opt m ("email_" ++ n)%string (email a) in
    let m := insert_string_attr m ("lastname_" ++ n)%string (last_name a) in
    let m := insert_string_opt m ("middlename_" ++ n)%string (middle_name a) in
    let m := insert_string_attr m ("firstname_" ++ n)%string (first_name a) in
    let m := insert_string_attr m ("authorinitials_" ++ n)%string ini in
    let m := match aget (m_header m) "authors" with
             | Some (AStr s) => insert_string_attr m "authors" (s ++ ", " ++ fullname a)%string
             | _ => insert_string_attr m "authors" (fullname a)
             end in
    Ret (with_authors m (m_authors m ++ [a]))
  end.

(** core/src/document_meta.rs:150-151 *)
Definition book_only : list string :=
  ["chapter-refsig"; "chapter-signifier"; "part-refsig"; "part-signifier"]%string.

(** core/src/document_meta.rs:131-160 — [true] is [Ok(())] *)
Definition insert_header_attr (m : meta) (k : string) (v : attr_value) : meta * bool :=
  if mem k JOB_ONLY then (m, false)
  else if String.eqb k "doctype" then
    match match av_str v with Some s => doctype_parse s | None => None end with
    | Some d => (set_doctype m d, true)
    | None => (m, false)
    end
  else if mem k book_only && negb (doctype_eqb (m_doctype m) Book) then (m, false)
  else
    let (h, ok) := attrs_insert (m_header m) k v in (with_header m h, ok).

(** core/src/document_meta.rs:162-174 *)
Definition insert_doc_attr (m : meta) (k : string) (v : attr_value) : meta * bool :=
  if mem k JOB_ONLY then (m, false)
  else if mem k HEADER_ONLY then (m, false)
  else let (d, ok) := attrs_insert (m_doc m) k v in (with_doc m d, ok).

(** core/src/document_meta.rs:176-182 *)
Definition insert_job_attr (m : meta) (k : string) (j : job_attr) : meta * bool :=
  let (j', ok) := job_insert (m_job m) k j in (with_job m j', ok).

(** core/src/document_meta.rs:184-186 *)
Definition clear_doc_attrs (m : meta) : meta := with_doc m [].

(** core/src/document_meta.rs:212-220 *)
Definition resolve_attr (m : meta) (k : string) : option attr_value :=
  match aget (m_doc m) k with
  | Some v => Some v
  | None => match aget (m_header m) k with
            | Some v => Some v
            | None => aget (m_default m) k
            end
  end.

(** core/src/attrs.rs:104-106 *)
Definition true_if (p : bool) : option attr_value := if p then Some (ABool true) else None.

(** core/src/document_meta.rs:233-251 *)
Definition get (m : meta) (k : string) : option attr_value :=
  if String.eqb k "doctype-article" then true_if (doctype_eqb (m_doctype m) Article)
  else if String.eqb k "doctype-book" then true_if (doctype_eqb (m_doctype m) Book)
  else if String.eqb k "doctype-inline" then true_if (doctype_eqb (m_doctype m) Inline)
  else if String.eqb k "doctype-manpage" then true_if (doctype_eqb (m_doctype m) Manpage)
  else match aget (m_job m) k with
       | Some j =>
           if ja_readonly j then Some (ja_value j)
           else match resolve_attr m k with Some v => Some v | None => Some (ja_value j) end
       | None =>
           if String.eqb k "doctitle" then
             match resolve_attr m "doctitle" with
             | Some v => Some v
             | None => resolve_attr m "_asciidork_derived_doctitle"
             end
           else resolve_attr m k
       end.

(** core/src/document_meta.rs:226-230 *)
Definition get_is_true (m : meta) k := match get m k with Some v => is_true v | None => false end.
Definition get_is_false (m : meta) k := match get m k with Some v => is_false v | None => false end.
Definition show_doc_title (m : meta) : bool :=
  negb (get_is_true m "notitle"
        || get_is_false m "showtitle"
        || (m_embedded m && (negb (get_is_true m "showtitle") && negb (get_is_false m "notitle")))).

(** core/src/job_settings.rs:4-10, 58-76 (strict is not part of the meta) *)
Record job_settings := {
  js_doctype : option doctype; js_safe : safe_mode; js_job : amap job_attr; js_embedded : bool }.
Definition from_settings (s : job_settings) : meta :=
  let job := match js_doctype s with
             | Some d => job_insert_unchecked (js_job s) "doctype" (readonly (AStr (doctype_str d)))
             | None => job_insert_unchecked (js_job s) "doctype" (modifiable (AStr "article"))
             end in
  let m := with_embedded (meta_new (js_safe s) job) (js_embedded s) in
  match js_doctype s with Some d => set_doctype m d | None => m end.

(** parser/src/parser.rs:353-367, run before the header is parsed (parser.rs:258) *)
Definition is_unset (m : meta) (k : string) : bool := match get m k with None => true | Some _ => false end.
Definition lockdown_secure_mode (m : meta) : meta :=
  match m_safe m with
  | Secure =>
      let m := fst (insert_job_attr m "data-uri" (readonly (ABool false))) in
      let m := if is_unset m "max-attribute-value-size"
               then fst (insert_job_attr m "max-attribute-value-size" (readonly (AStr "4096"))) else m in
      let m := if is_unset m "linkcss" then fst (insert_job_attr m "linkcss" (readonly (AStr ""))) else m in
      if is_unset m "icons" then fst (insert_job_attr m "icons" (readonly (ABool false))) else m
  | _ => m
  end.

(** What a document can do to its attributes while it is parsed: header entries
    (parser/src/tasks/parse_doc_attrs.rs:187), body entries (parser/src/tasks/parse_block.rs),
    authors (parse_doc_attrs.rs:191), the end-of-parse clear (parser/src/parser.rs:282). *)
Inductive op :=
| OHeader (k : string) (v : attr_value)
| OBody (k : string) (v : attr_value)
| OAuthor (a : author)
| OClear.

Definition step (m : meta) (o : op) : outcome meta :=
  match o with
  | OHeader k v => Ret (fst (insert_header_attr m k v))
  | OBody k v => Ret (fst (insert_doc_attr m k v))
  | OAuthor a => add_author m a
  | OClear => Ret (clear_doc_attrs m)
  end.

Fixpoint run (m : meta) (ops : list op) : outcome meta :=
  match ops with
  | [] => Ret m
  | o :: r => match step m o with Ret m' => run m' r | Panic => Panic end
  end.
