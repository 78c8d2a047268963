(** Model of core/src/path.rs over bytes. Unix build: MAIN_SEPARATOR is '/'. *)
From Verif Require Import Base.

Definition slash : ascii := "/"%char.
Definition bslash : ascii := "\"%char.

(** core/src/path.rs:1-9 *)
Inductive component :=
| UriScheme (s : bytes) | DrivePrefix (s : bytes) | Root | CurrentDir | ParentDir | Normal (s : bytes).

(** core/src/path.rs:11-15 *)
Record path := mkPath { separator : ascii; components : list component }.

(** u8::is_ascii_alphabetic *)
Definition alphabetic (c : ascii) : bool :=
  let n := nat_of_ascii c in ((65 <=? n) && (n <=? 90)) || ((97 <=? n) && (n <=? 122)).

(** core/src/path.rs:204-215 *)
Definition drive_prefix (s : bytes) : option bytes :=
  match s with
  | a :: d :: _ => if Ascii.eqb d ":"%char && alphabetic a then Some [a; d] else None
  | _ => None
  end.

(** core/src/path.rs:50-57, one segment *)
Definition segment (s : bytes) : list component :=
  if bytes_eqb s [] then []
  else if bytes_eqb s ($".") then [CurrentDir]
  else if bytes_eqb s ($"..") then [ParentDir]
  else if bytes_eqb s ($"https:") then [UriScheme ($"https")]
  else if bytes_eqb s ($"http:") then [UriScheme ($"http")]
  else [Normal s].

(** core/src/path.rs:46-57: an initial separator is the root; the rest is split *)
Definition body (sep : ascii) (s : bytes) : list component :=
  match s with
  | c :: r => if Ascii.eqb c sep then Root :: flat_map segment (split_byte sep r)
              else flat_map segment (split_byte sep s)
  | [] => flat_map segment (split_byte sep [])
  end.

(** core/src/path.rs:36-45 *)
Definition infer (s : bytes) : ascii :=
  if contains_byte bslash s then bslash else slash.

(** core/src/path.rs:26-62 *)
Definition from_optional_sep (s : bytes) (sep : option ascii) : path :=
  let '(pre, rest, inferred) :=
    match drive_prefix s with
    | Some p => ([DrivePrefix p], skipn 2 s, bslash)
    | None => ([], s, infer s)
    end in
  mkPath (match sep with Some c => c | None => inferred end) (pre ++ body inferred rest).
(** core/src/path.rs:18-24 *)
Definition new_specifying_separator (s : bytes) (c : ascii) : path := from_optional_sep s (Some c).
Definition new (s : bytes) : path := from_optional_sep s None.

(** core/src/path.rs:161-163 *)
Definition is_uri (p : path) : bool :=
  match components p with UriScheme _ :: _ => true | _ => false end.
(** core/src/path.rs:72-79 *)
Definition is_absolute (p : path) : bool :=
  is_uri p
  || match components p with
     | Root :: _ => true
     | DrivePrefix _ :: Root :: _ => true
     | _ => false
     end.
(** core/src/path.rs:81-83 *)
Definition is_relative (p : path) : bool := negb (is_absolute p).
(** core/src/path.rs:64-70 *)
Definition push (p q : path) : path :=
  mkPath (separator p) ((if is_absolute q then [] else components p) ++ components q).
(** core/src/path.rs:94-98 *)
Definition join (p q : path) : path := push p q.
(** core/src/path.rs:85-92 *)
Definition pop (p : path) : bool * path :=
  if 1 <? length (components p) then (true, mkPath (separator p) (removelast (components p))) else (false, p).

(** core/src/path.rs:104-110: walks back over current-directory components; [idx - 1] underflows at 0.
    The argument is the reversed list of components up to [idx]. *)
Fixpoint file_name_rev (l : list component) : outcome bytes :=
  match l with
  | [] => Panic
  | Normal s :: _ => Ret s
  | CurrentDir :: r => file_name_rev r
  | _ :: _ => Ret []
  end.
(** core/src/path.rs:100-102; [len() - 1] underflows on no components. [Panic] is the build with
    overflow checks; without them both underflows make the result the empty text *)
Definition file_name (p : path) : outcome bytes := file_name_rev (rev (components p)).

(** [rfind('.')]: the text before the last dot and from it on *)
Fixpoint rsplit_dot (s : bytes) : option (bytes * bytes) :=
  match s with
  | [] => None
  | c :: r =>
      match rsplit_dot r with
      | Some (x, y) => Some (c :: x, y)
      | None => if Ascii.eqb c "."%char then Some ([], c :: r) else None
      end
  end.
(** core/src/path.rs:112-118 *)
Definition file_stem (p : path) : outcome bytes :=
  match file_name p with
  | Ret f => Ret (match rsplit_dot f with Some (x, _) => x | None => f end)
  | Panic => Panic
  end.
(** core/src/path.rs:120-123 *)
Definition extension (p : path) : outcome bytes :=
  match file_name p with
  | Ret f => Ret (match rsplit_dot f with Some (_, y) => y | None => [] end)
  | Panic => Panic
  end.

(** text of one component — core/src/path.rs:182-192 *)
Definition show1 (sep : ascii) (c : component) : bytes :=
  match c with
  | UriScheme s => s ++ $":/"
  | DrivePrefix s => s
  | Root => [sep]
  | CurrentDir => $"."
  | ParentDir => $".."
  | Normal s => s
  end.
(** whether a separator follows a component that is not the last — core/src/path.rs:193-198 *)
Definition sep_after (sep : ascii) (c : component) : bytes :=
  match c with Root => [] | DrivePrefix _ => [] | _ => [sep] end.
(** core/src/path.rs:178-202 *)
Fixpoint show (sep : ascii) (l : list component) : bytes :=
  match l with
  | [] => []
  | [c] => show1 sep c
  | c :: r => show1 sep c ++ sep_after sep c ++ show sep r
  end.
Definition to_string (p : path) : bytes := show (separator p) (components p).

(** core/src/path.rs:136-157: as [show], but a scheme prints as [scheme:] *)
Definition dshow1 (sep : ascii) (c : component) : bytes :=
  match c with UriScheme s => s ++ $":" | _ => show1 sep c end.
Fixpoint dshow (sep : ascii) (l : list component) : bytes :=
  match l with
  | [] => []
  | [c] => dshow1 sep c
  | c :: r => dshow1 sep c ++ sep_after sep c ++ dshow sep r
  end.
(** core/src/path.rs:125-159 *)
Definition dirname (p : path) : bytes :=
  match components p with
  | [Root] => to_string p
  | [DrivePrefix _; Root] => to_string p
  | l => dshow (separator p) (removelast l)
  end.
