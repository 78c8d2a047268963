(** Model of the include directive's decisions (parser/src/tasks/directives/includes/
    process_includes.rs, target.rs, include_resolver.rs) and of the command line resolver
    (cli/src/resolver.rs). Text is bytes. *)
From Verif Require Import Base AttrsModel.
From Verif Require PathModel.

(** ** targets *)
(** parser/src/tasks/directives/includes/include_resolver.rs:5-9 *)
Inductive target := FilePath (s : bytes) | Uri (s : bytes).

(** parser/src/tasks/directives/includes/include_resolver.rs:92-101 *)
Inductive resolve_error :=
| NotFound | Io | UriReadNotSupported | UriRead | BaseDirRequired | RestrictedPath
| CaseMismatch (name : option bytes).

(** include_resolver.rs:28-36 *)
Definition target_of_path (p : PathModel.path) : target :=
  if PathModel.is_uri p then Uri (PathModel.to_string p) else FilePath (PathModel.to_string p).
(** include_resolver.rs:20-25 *)
Definition target_path (t : target) : PathModel.path :=
  match t with FilePath s => PathModel.new s | Uri s => PathModel.new s end.

(** core/src/file.rs: where the current source comes from. [Stdin] carries the working directory,
    which nothing here reads. *)
Inductive source_file := SrcPath (p : PathModel.path) | SrcStdin | SrcTmp.

(** parser/src/tasks/directives/includes/target.rs:6-37. [Panic] is the [unimplemented!] for stdin and the
    [unreachable!] for temporary buffers. *)
Definition prepare (t : bytes) (t_is_uri : bool) (src : source_file) (primary : bool) (base : option PathModel.path)
  : outcome (result target resolve_error) :=
  if t_is_uri then Ret (Ok (Uri t))
  else
    let p := PathModel.new t in
    if primary && PathModel.is_relative p then
      match base with
      | None => Ret (Err BaseDirRequired)
      | Some d => Ret (Ok (FilePath (PathModel.to_string (PathModel.join d p))))
      end
    else
      match src with
      | SrcPath s =>
          Ret (Ok (target_of_path
            (if PathModel.is_relative p then PathModel.join (PathModel.new (PathModel.dirname s)) p else p)))
      | SrcStdin => Panic
      | SrcTmp => Panic
      end.

(** The directive's target starts with a [UriScheme] token — process_includes.rs:155,
    parser/src/lexer/source_lexer.rs:656-666 *)
Definition lexes_as_uri (t : bytes) : bool :=
  existsb (fun p => starts_with p t)
    [$"http://"; $"https://"; $"ftp://"; $"mailto://"; $"irc://"; $"file:///"].

(** ** the directive *)
(** process_includes.rs:8-15; the attribute list is reduced to what the decision reads *)
Record directive := {
  d_line : bytes;
  d_target : bytes;
  d_optional : bool
}.

(** What the decision depends on. [limits] lists the [depth=] option of every source pushed so far, by
    source index; [idx] is the current source (RootLexer, parser/src/lexer/root_lexer.rs:7-15). *)
Record env := {
  e_meta : meta;
  e_idx : N;
  e_limits : list (option N);
  e_max : N;
  e_src : source_file;
  e_resolver : option (option bytes)   (* present?, and its base directory *)
}.

(** u16 addition: overflow panics with debug assertions on, wraps otherwise *)
Definition add16 (dbg : bool) (a c : N) : outcome N :=
  if (a + c <? 65536)%N then Ret (a + c)%N else if dbg then Panic else Ret ((a + c) - 65536)%N.

(** parser/src/lexer/root_lexer.rs:333-341: the limit of the last source that has one, with its index *)
Fixpoint last_limit (i : N) (l : list (option N)) (cur : option (N * N)) : option (N * N) :=
  match l with
  | [] => cur
  | Some d :: r => last_limit (i + 1) r (Some (d, i))
  | None :: r => last_limit (i + 1) r cur
  end.
(** process_includes.rs:219-231 *)
Definition exceeded_max_include_depth (dbg : bool) (idx : N) (limits : list (option N)) (max : N) : outcome (option N) :=
  let '(rel, stack) := match last_limit 0 limits None with Some x => x | None => (max, 0%N) end in
  match add16 dbg rel stack with
  | Panic => Panic
  | Ret abs =>
      match add16 dbg idx 1 with
      | Panic => Panic
      | Ret next => Ret (if (N.min abs max <? next)%N then Some rel else None)
      end
  end.

(** parser/src/parser.rs DirectiveAction, as far as includes use it. [Splice] is "push the source and
    read on", [Unresolved] is the message put in place of the directive. *)
Inductive action := Passthrough | Link | Splice (content : bytes) | Skip | Unresolved.
(** What an include directive does: the resolver calls made, the action, whether a problem is reported. *)
Record effect := { calls : list (target * safe_mode); act : action; reported : bool }.

(** process_includes.rs:18-136. The resolver and the byte normalisation (which may fail on bad UTF-16/UTF-8)
    are arbitrary functions; line selection and re-indentation are modelled separately. *)
Definition process_include (dbg : bool)
    (resolve : target -> safe_mode -> result bytes resolve_error)
    (normalize : bytes -> option bytes) (e : env) (d : directive) : outcome effect :=
  let mode := m_safe (e_meta e) in
  let is_uri := lexes_as_uri (d_target d) in
  if match mode with Secure => true | _ => false end then
    Ret {| calls := []; act := Link; reported := false |}
  else if is_uri && (match mode with Secure => true | _ => false end || negb (get_is_true (e_meta e) "allow-uri-read")) then
    Ret {| calls := []; act := Link; reported := true |}
  else
    match exceeded_max_include_depth dbg (e_idx e) (e_limits e) (e_max e) with
    | Panic => Panic
    | Ret (Some _) => Ret {| calls := []; act := Passthrough; reported := true |}
    | Ret None =>
      match e_resolver e with
      | None => Ret {| calls := []; act := Passthrough; reported := true |}
      | Some base =>
        match prepare (d_target d) is_uri (e_src e) (e_idx e =? 0)%N (option_map PathModel.new base) with
        | Panic => Panic
        | Ret (Err _) => Ret {| calls := []; act := Link; reported := true |}
        | Ret (Ok t) =>
          let log := [(t, mode)] in
          match resolve t mode with
          | Ok content =>
              match normalize content with
              | None => Ret {| calls := log; act := Link; reported := true |}
              | Some c => Ret {| calls := log; act := Splice c; reported := false |}
              end
          | Err NotFound =>
              Ret (if d_optional d then {| calls := log; act := Skip; reported := false |}
                   else {| calls := log; act := Unresolved; reported := true |})
          | Err Io => Ret {| calls := log; act := Unresolved; reported := true |}
          | Err _ => Ret {| calls := log; act := Passthrough; reported := true |}
          end
        end
      end
    end.

(** str::replace: every non-overlapping occurrence, left to right *)
Fixpoint replace_all (pat rep : bytes) (skip : nat) (s : bytes) : bytes :=
  match s with
  | [] => []
  | c :: r =>
      match skip with
      | S k => replace_all pat rep k r
      | O => if starts_with pat s then rep ++ replace_all pat rep (length pat - 1) r
             else c :: replace_all pat rep O r
      end
  end.
(** process_includes.rs:170-204, on text. Simplification: the line is re-lexed and edited token by token;
    the first token is the macro name [link:] and the lexer turns every '[' byte into one OpenBracket token,
    so editing '[' bytes is the same. *)
Definition link_line (line : bytes) (has_spaces : bool) : bytes :=
  let l := replace_all ($"include::") ($"link:") 0 line in
  firstn 5 l
  ++ (if has_spaces then $"pass:c[" else [])
  ++ flat_map (fun c => if Ascii.eqb c "["%char
                        then (if has_spaces then $"]" else []) ++ $"[role=include," else [c]) (skipn 5 l).

(** ** images *)
(** core/src/regx.rs:67, ^[a-zA-Z][a-zA-Z0-9.+-]+:/{0,2} *)
Definition scheme_byte (c : ascii) : bool :=
  let n := nat_of_ascii c in
  PathModel.alphabetic c || ((48 <=? n) && (n <=? 57)) || Ascii.eqb c "."%char || Ascii.eqb c "+"%char || Ascii.eqb c "-"%char.
Fixpoint scheme_tail (s : bytes) : bool :=
  match s with
  | c :: r => Ascii.eqb c ":"%char || (scheme_byte c && scheme_tail r)
  | [] => false
  end.
Definition uri_sniff (s : bytes) : bool :=
  match s with
  | c :: d :: r => PathModel.alphabetic c && scheme_byte d && scheme_tail r
  | _ => false
  end.

(** parser/src/tasks/parse_image_block.rs:263-267 *)
Inductive image_kind := InlineSvg | DataUri | AdmonitionIcon.
(** parse_image_block.rs:278-284 *)
Definition dir_attr (k : image_kind) : string :=
  match k with InlineSvg => "imagesdir" | DataUri => "imagesdir" | AdmonitionIcon => "iconsdir" end.
(** core/src/attrs.rs:20-26, 55-57: a set flag reads as the empty string *)
Definition value_str (v : option attr_value) : option bytes :=
  match v with Some (AStr v) => Some (b v) | Some (ABool true) => Some [] | _ => None end.
Definition get_str (m : meta) (k : string) : option bytes := value_str (get m k).

(** parse_image_block.rs:204-252: the resolver call made, if any *)
Definition image_bytes_call (m : meta) (base : option (option bytes)) (t : bytes) (t_is_uri : bool) (k : image_kind)
  : option (target * safe_mode) :=
  match base with
  | None => None
  | Some dir =>
    if t_is_uri && negb (get_is_true m "allow-uri-read") then None
    else if t_is_uri then Some (Uri t, m_safe m)
    else match dir with
    | None => None
    | Some d =>
        let d := PathModel.new d in
        let go (p : PathModel.path) := Some (target_of_path (PathModel.join p (PathModel.new t)), m_safe m) in
        match get_str m (dir_attr k) with
        | Some images =>
            if uri_sniff images && negb (get_is_true m "allow-uri-read") then None
            else if uri_sniff images then go (PathModel.new images)
            else go (PathModel.join d (PathModel.new images))
        | None => go d
        end
    end
  end.
(** parse_image_block.rs:190-202 *)
Definition is_disallowed_abs_uri (m : meta) (t_is_uri : bool) (k : image_kind) : bool :=
  (t_is_uri || match get_str m (dir_attr k) with Some d => uri_sniff d | None => false end)
  && negb (get_is_true m "allow-uri-read").
(** parse_image_block.rs:170-188. [inline] is the option on the macro or the block, [format] the named attribute,
    [svg_name] whether the target matches core/src/regx.rs:54 *)
Definition should_resolve_as_inline_svg (m : meta) (inline : bool) (format : option bytes) (svg_name : bool) : bool :=
  if negb inline || match format with Some f => negb (bytes_eqb f ($"svg")) | None => false end then false
  else if match m_safe m with Secure => true | _ => false end then false
  else match format with None => svg_name | Some _ => true end.
(** parse_image_block.rs:28-45: the resolver call made for an image macro. The lexer decides [t_is_uri]
    (parse_image_block.rs:15). *)
Definition image_call (m : meta) (base : option (option bytes)) (t : bytes) (inline : bool) (format : option bytes)
    (svg_name : bool) : option (target * safe_mode) :=
  let t_is_uri := lexes_as_uri t in
  if should_resolve_as_inline_svg m inline format svg_name then image_bytes_call m base t t_is_uri InlineSvg
  else if negb (get_is_true m "data-uri") || starts_with ($"data:") t || is_disallowed_abs_uri m t_is_uri DataUri then None
  else image_bytes_call m base t t_is_uri DataUri.
(** parse_image_block.rs:47-102: the resolver call made for an admonition block whose icon file is [file] *)
Definition admonition_call (m : meta) (base : option (option bytes)) (file : bytes) : option (target * safe_mode) :=
  if negb (get_is_true m "data-uri") then None
  else if negb (get_is_true m "icons") || match get m "icons" with Some (AStr v) => String.eqb v "font" | _ => false end then None
  else if is_disallowed_abs_uri m false AdmonitionIcon then None
  else image_bytes_call m base file false AdmonitionIcon.

(** ** the command line resolver *)
(** A file system at one moment: where a path text really leads (canonical absolute components, links
    followed), and what is stored there. *)
Record fs := { canon : bytes -> option (list bytes); stored : list bytes -> option bytes }.

(** std::path components of a unix path text: is it rooted, and the parts (std drops empty parts and
    every "." except a leading one) *)
Definition drop_dots (l : list bytes) : list bytes :=
  filter (fun p => negb (bytes_eqb p []) && negb (bytes_eqb p ($"."))) l.
Definition std_components (s : bytes) : bool * list bytes :=
  match s with
  | c :: r => if Ascii.eqb c "/"%char then (true, drop_dots (split_byte "/"%char r))
              else match split_byte "/"%char s with
                   | h :: t => (false, (if bytes_eqb h [] then [] else [h]) ++ drop_dots t)
                   | [] => (false, [])
                   end
  | [] => (false, [])
  end.
(** Path::file_name *)
Definition std_file_name (l : list bytes) : option bytes :=
  match rev l with
  | p :: _ => if bytes_eqb p ($"..") || bytes_eqb p ($".") then None else Some p
  | [] => None
  end.
Fixpoint list_eqb (x y : list bytes) : bool :=
  match x, y with
  | [], [] => true
  | a :: x', c :: y' => bytes_eqb a c && list_eqb x' y'
  | _, _ => false
  end.
(** Path::starts_with: component by component *)
Fixpoint comps_prefix (x y : list bytes) : bool :=
  match x, y with
  | [], _ => true
  | a :: x', c :: y' => bytes_eqb a c && comps_prefix x' y'
  | _ :: _, [] => false
  end.

(** cli/src/resolver.rs:56-101. The result is paired with the real paths of the files opened. The file system
    may change between the check ([fs0]) and the open ([fs1]); content is read in one go (the separate
    length query is not modelled). *)
Definition cli_resolve_filepath (base : option bytes) (strict : bool) (fs0 fs1 : fs) (p : bytes) (mode : safe_mode)
  : list (list bytes) * result bytes resolve_error :=
  match canon fs0 p with
  | None => ([], Err NotFound)
  | Some pc =>
    let denied :=
      match mode with
      | Unsafe => None
      | _ => match base with
             | Some d => match canon fs0 d with
                         | Some dc => if comps_prefix dc pc then None else Some RestrictedPath
                         | None => Some BaseDirRequired
                         end
             | None => Some BaseDirRequired
             end
      end in
    match denied with
    | Some e => ([], Err e)
    | None =>
      let '(rooted, parts) := std_components p in
      if strict && negb (rooted && list_eqb parts pc) then
        match std_file_name parts, std_file_name pc with
        | Some a, Some c => if negb (bytes_eqb a c) then ([], Err (CaseMismatch (Some c))) else ([], Err (CaseMismatch None))
        | _, _ => ([], Err (CaseMismatch None))
        end
      else
        match canon fs1 p with
        | None => ([], Err NotFound)
        | Some rc => match stored fs1 rc with
                     | Some c => ([rc], Ok c)
                     | None => ([], Err Io)
                     end
        end
    end
  end.

(** cli/src/resolver.rs:19-38: URIs are fetched ([get]) whatever the safe mode *)
Definition cli_resolve (base : option bytes) (strict : bool) (fs0 fs1 : fs) (get : bytes -> option bytes)
    (t : target) (mode : safe_mode) : list (list bytes) * list bytes * result bytes resolve_error :=
  match t with
  | FilePath p => let '(files, r) := cli_resolve_filepath base strict fs0 fs1 p mode in (files, [], r)
  | Uri u => ([], [u], match get u with Some c => Ok c | None => Err UriRead end)
  end.

(** ** the custom stylesheet *)
(** cli/src/css.rs:4-53: file read (real path) and error flag. [joined] is the text of
    cwd/stylesdir/stylesheet; [cwd] is the working directory's own components. *)
Definition css_read (m : meta) (fs0 : fs) (cwd : bytes) (cwdc : list bytes) : list (list bytes) * bool :=
  match value_str (aget (m_header m) "stylesheet") with
  | None => ([], false)
  | Some [] => ([], false)
  | Some name =>
      let sdir := match value_str (aget (m_header m) "stylesdir") with Some d => d | None => $"." end in
      let p := PathModel.join (PathModel.join (PathModel.new cwd) (PathModel.new sdir)) (PathModel.new name) in
      match canon fs0 (PathModel.to_string p) with
      | None => ([], true)
      | Some c =>
          if negb (match m_safe m with Unsafe => true | _ => false end) && negb (comps_prefix cwdc c) then ([], true)
          else match stored fs0 c with Some _ => ([c], false) | None => ([], true) end
      end
  end.
