(** Model of docinfo files: parser/src/docinfo.rs, called at the end of parsing (parser/src/parser.rs:279).
    The resolver is given by its base directory, if it has one, and by what it returns for a target; [lossy] is String::from_utf8_lossy, which only matters for
    files with a byte order mark whose rest is not valid UTF-8. *)
From Verif Require Import Base Text AttrsModel IncludeModel NormModel AttrRefsModel LexerModel.
From Verif Require PathModel.

(** ast/src/inline.rs, the symbols of docinfo.rs:219-243 *)
Inductive symbol := Trademark | Copyright | Registered | Ellipsis | TripleDash | EmDash | SingleRightArrow | DoubleRightArrow | SingleLeftArrow | DoubleLeftArrow.
(** DocInfoFragment: inline nodes that are text or symbols *)
Inductive dnode := DText (t : bytes) | DSym (s : symbol).

(** core/src/attrs.rs:47-49 *)
Definition is_set (m : meta) (k : string) : bool := match get m k with Some _ => true | None => false end.
Definition comma (c : ascii) : bool := Ascii.eqb c ","%char.
(** docinfo.rs:120-133 *)
Definition docinfo_attributes (m : meta) : list bytes :=
  match get_str m "docinfo" with
  | Some (c :: r) => filter (fun p => negb (bytes_eqb p [])) (map trim (split_by comma (c :: r)))
  | v => if is_set m "docinfo2" then [$"private"; $"shared"]
         else if is_set m "docinfo1" then [$"shared"]
         else match v with Some _ => [$"private"] | None => [] end
  end.
(** docinfo.rs:135-158 *)
Definition docinfo_target (m : meta) (base : option bytes) (file : bytes) : target :=
  let path :=
    match get_str m "docinfodir" with
    | Some docinfodir =>
        let dir := PathModel.new docinfodir in
        if PathModel.is_absolute dir then PathModel.join dir (PathModel.new file)
        else match base with
             | Some d => PathModel.join (PathModel.join (PathModel.new d) dir) (PathModel.new file)
             | None => PathModel.join dir (PathModel.new file)
             end
    | None => match base with Some d => PathModel.join (PathModel.new d) (PathModel.new file) | None => PathModel.new file end
    end in
  target_of_path path.
(** docinfo.rs:160-173 *)
Definition docinfo_subs (m : meta) : bool * bool :=
  match get_str m "docinfosubs" with
  | None => (true, false)
  | Some v => let parts := map trim (split_by comma v) in
              (existsb (bytes_eqb ($"attributes")) parts, existsb (bytes_eqb ($"replacements")) parts)
  end.
(** docinfo.rs:175-178 *)
Definition docinfo_filename (m : meta) (qualifier : bytes) : bytes :=
  $"docinfo" ++ qualifier ++ match get_str m "outfilesuffix" with Some s => s | None => $".html" end.

(** docinfo.rs:187-204 *)
Fixpoint append_docinfo_text (nodes : list dnode) (text : bytes) : list dnode :=
  match text with
  | [] => nodes
  | _ => match nodes with
         | [] => [DText text]
         | [DText t] => [DText (t ++ text)]
         | n :: r => n :: append_docinfo_text r text
         end
  end.
(** docinfo.rs:216-240, in the order of the tests *)
Definition symbols : list (bytes * symbol) :=
  [($"(TM)", Trademark); ($"(C)", Copyright); ($"(R)", Registered); ($"...", Ellipsis); ($"---", TripleDash); ($"--", EmDash);
   ($"->", SingleRightArrow); ($"=>", DoubleRightArrow); ($"<-", SingleLeftArrow); ($"<=", DoubleLeftArrow)].
Definition symbol_at (s : bytes) : option (bytes * symbol) := find (fun p => starts_with (fst p) s) symbols.
(** docinfo.rs:206-253; [pending] is text[start..i]. The text is cut in front of an ASCII character and behind one, never within a character. *)
Fixpoint append_docinfo_symbols (fuel : nat) (nodes : list dnode) (pending s : bytes) : list dnode :=
  match fuel with
  | O => append_docinfo_text nodes pending
  | S f =>
      match s with
      | [] => append_docinfo_text nodes pending
      | c :: r =>
          match symbol_at s with
          | Some (w, k) => append_docinfo_symbols f (append_docinfo_text nodes pending ++ [DSym k]) [] (skipn (length w) s)
          | None => append_docinfo_symbols f nodes (pending ++ [c]) r
          end
      end
  end.

(** docinfo.rs:255-285 and regx.rs:7: the replaced text and whether the line is dropped *)
Inductive missing := Keep | Drop | DropLine.
Definition attr_missing (m : meta) : missing :=
  match get_str m "attribute-missing" with
  | Some v => if bytes_eqb v ($"drop") then Drop else if bytes_eqb v ($"drop-line") then DropLine else Keep
  | None => Keep
  end.
Definition one_ref (m : meta) (n : bytes) : bytes * bool :=
  match get m (string_of_list_ascii n) with
  | Some (AStr v) => (b v, false)
  | _ => match attr_missing m with Drop => ([], false) | DropLine => ([], true) | Keep => ($"{" ++ n ++ $"}", false) end
  end.
Fixpoint replace_refs (m : meta) (fuel : nat) (s : bytes) : bytes * bool :=
  match fuel with
  | O => (s, false)
  | S f =>
      match s with
      | [] => ([], false)
      | c :: t =>
          let keep := let (out, d) := replace_refs m f t in (c :: out, d) in
          if Ascii.eqb c "{"%char then
            match name_run t, skipn (length (name_run t)) t with
            | _ :: _, d :: rest =>
                if Ascii.eqb d "}"%char
                then let (v, d1) := one_ref m (name_run t) in let (out, d2) := replace_refs m f rest in (v ++ out, d1 || d2)
                else keep
            | _, _ => keep
            end
          else keep
      end
  end.
Definition resolve_docinfo_attr_refs (m : meta) (line : bytes) (attr_refs : bool) : option bytes :=
  if negb attr_refs then Some line
  else let (out, drop) := replace_refs m (length line) line in if drop then None else Some out.

(** docinfo.rs:100-117, without the line's LF *)
Definition parse_docinfo_line (m : meta) (line : bytes) : list dnode :=
  let (attr_refs, replacements) := docinfo_subs m in
  match resolve_docinfo_attr_refs m line attr_refs with
  | None => []
  | Some l => if replacements then append_docinfo_symbols (length l) [] [] l else append_docinfo_text [] l
  end.
(** str::split_inclusive('\n') and the LF taken off each line *)
Definition lines_of (s : bytes) : list bytes :=
  let ps := split_byte LF s in match last ps [] with [] => removelast ps | _ => ps end.
(** docinfo.rs:89-98 *)
Definition parse_docinfo_fragment (m : meta) (text : bytes) : list dnode := flat_map (parse_docinfo_line m) (lines_of text).
(** docinfo.rs:83-85 *)
Fixpoint unix_lines (s : bytes) : bytes :=
  match s with
  | [] => []
  | c :: t => if Ascii.eqb c CR then LF :: match t with d :: t' => if Ascii.eqb d LF then unix_lines t' else unix_lines t | [] => [] end else c :: unix_lines t
  end.
(** docinfo.rs:75-87; the call made and what comes of it *)
Definition read_docinfo (m : meta) (lossy : bytes -> bytes) (base : option bytes) (content : target -> option bytes) (file : bytes)
  : (target * safe_mode) * option (list dnode) :=
  let t := docinfo_target m base file in
  ((t, m_safe m),
   match content t with
   | None => None
   | Some raw => match normalize_encoding None raw with
                 | Err _ => None
                 | Ok s => Some (parse_docinfo_fragment m (unix_lines (lossy s)))
                 end
   end).

(** docinfo.rs:41-73 *)
Definition resolve_docinfo_location (m : meta) (lossy : bytes -> bytes) (base : option bytes) (content : target -> option bytes) (docinfo : list bytes)
    (shared_file shared_key private_key : bytes) : list (target * safe_mode) * option (list dnode) :=
  let any k1 k2 := existsb (fun v => bytes_eqb v k1 || bytes_eqb v k2) docinfo in
  let '(calls1, found1) :=
    if any ($"shared") shared_key then let (c, r) := read_docinfo m lossy base content shared_file in ([c], r) else ([], None) in
  let '(calls2, found2) :=
    match get_str m "docname" with
    | Some (x :: r) =>
        if any ($"private") private_key then let (c, r) := read_docinfo m lossy base content ((x :: r) ++ $"-" ++ shared_file) in ([c], r) else ([], None)
    | _ => ([], None)
    end in
  (calls1 ++ calls2,
   match found1, found2 with
   | None, None => None
   | Some f, None => Some f
   | None, Some f => Some f
   | Some f, Some g => Some (append_docinfo_text f [LF] ++ g)
   end).

Record docinfo := { head : option (list dnode); header : option (list dnode); footer : option (list dnode) }.
Definition no_docinfo : docinfo := {| head := None; header := None; footer := None |}.
(** docinfo.rs:5-39. [resolver] is None without a resolver, and otherwise its base directory *)
Definition resolve_docinfo (m : meta) (lossy : bytes -> bytes) (resolver : option (option bytes)) (content : target -> option bytes)
  : list (target * safe_mode) * docinfo :=
  match m_safe m with
  | Secure => ([], no_docinfo)
  | _ =>
      let di := docinfo_attributes m in
      match di, resolver with
      | [], _ => ([], no_docinfo)
      | _, None => ([], no_docinfo)
      | _, Some base =>
          let loc q s p := resolve_docinfo_location m lossy base content di (docinfo_filename m q) s p in
          let '(c1, f1) := loc [] ($"shared-head") ($"private-head") in
          let '(c2, f2) := loc ($"-header") ($"shared-header") ($"private-header") in
          let '(c3, f3) := loc ($"-footer") ($"shared-footer") ($"private-footer") in
          (c1 ++ c2 ++ c3, {| head := f1; header := f2; footer := f3 |})
      end
  end.
