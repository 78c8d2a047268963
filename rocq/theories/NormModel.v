(** Model of the normalisation of included bytes: parser/src/tasks/directives/includes/normalize_includes.rs:8-18, 35-50, 72-153. *)
From Verif Require Import Base Utf8 Unicode PathModel LexerModel.

Definition raw (l : list nat) : bytes := map ascii_of_nat l.
(** normalize_includes.rs:123-126 with u16::from_le_bytes, and 99-102 with u16::from_be_bytes ([chunks_exact(2)]) *)
Fixpoint units_le (s : bytes) : list N := match s with a :: c :: r => (val a + 256 * val c)%N :: units_le r | _ => [] end.
Fixpoint units_be (s : bytes) : list N := match s with a :: c :: r => (256 * val a + val c)%N :: units_be r | _ => [] end.
(** normalize_includes.rs:120-122, 95-97 *)
Definition pad (s : bytes) : bytes := if Nat.even (length s) then s else s ++ raw [0].
(** normalize_includes.rs:144-153 and 119-133; [String::from_utf16] decodes all of it or fails *)
Definition convert_utf16_le (s : bytes) : result bytes bytes :=
  match decode16 (units_le (pad s)) with Some ns => Ok (utf8_text ns) | None => Err ($"Invalid UTF-16 (LE)") end.
Definition convert_utf16_be (s : bytes) : result bytes bytes :=
  match decode16 (units_be (pad s)) with Some ns => Ok (utf8_text ns) | None => Err ($"Invalid UTF-16 (BE)") end.
(** normalize_includes.rs:72-117 *)
Definition normalize_encoding (encoding : option bytes) (s : bytes) : result bytes bytes :=
  if match encoding with Some e => existsb (bytes_eqb e) [$"utf-16"; $"utf16"; $"UTF-16"; $"UTF16"] | None => false end
  then convert_utf16_le s
  else if starts_with (raw [239; 187; 191]) s then Ok (skipn 3 s)
  else if starts_with (raw [255; 254]) s then convert_utf16_le (skipn 2 s)
  else if starts_with (raw [254; 255]) s then convert_utf16_be (skipn 2 s)
  else if is_utf8 s then Ok s else Err ($"Invalid UTF-8").

(** normalize_includes.rs:136-142; the destination is kept reversed *)
Fixpoint trim_rev (dest : bytes) : bytes :=
  match dest with c :: r => if mem c [" "%char; TAB] then trim_rev r else dest | [] => [] end.
(** normalize_includes.rs:40-49 *)
Fixpoint clean (dest s : bytes) : bytes :=
  match s with
  | [] => rev dest
  | c :: t =>
      if Ascii.eqb c LF then clean (LF :: trim_rev dest) t
      else if Ascii.eqb c CR && is (hd_error t) LF then clean dest t
      else clean (c :: dest) t
  end.
(** normalize_includes.rs:35-50; [extension] panics for a path without a last component *)
Definition normalize_asciidoc (p : path) (s : bytes) : outcome bytes :=
  match extension p with
  | Panic => Panic
  | Ret ext => if existsb (bytes_eqb ext) [$".adoc"; $".asciidoc"; $".ad"; $".asc"; $".txt"] then Ret (clean [] s) else Ret s
  end.
(** normalize_includes.rs:8-18 *)
Definition normalize_include_bytes (p : path) (encoding : option bytes) (s : bytes) : outcome (result bytes bytes) :=
  match normalize_encoding encoding s with
  | Err e => Ret (Err e)
  | Ok t => match normalize_asciidoc p t with Ret u => Ret (Ok u) | Panic => Panic end
  end.
