(** Model of attribute references: in the lines of a document (parser/src/tasks/attr_refs.rs:44-100, the loop of parser.rs:119-134)
    and in attribute values, ifeval expressions and the like (parser/src/tasks/parse_doc_attrs.rs:250-260). *)
From Verif Require Import Base Text Utf8 LexerModel RootModel AttrsModel.

(** What document.meta.get answers. *)
Definition lookup := bytes -> option attr_value.
Definition lower_byte (c : ascii) : ascii := if upper c then ascii_of_N (N_of_ascii c + 32) else c.
(** token.rs:171-183. The names of references are ASCII, so to_lowercase only changes ASCII letters. *)
Definition attr_name (lexeme : bytes) : bytes := firstn (length lexeme - 2) (skipn 1 lexeme).
Definition lowercase (s : bytes) : bytes := map lower_byte s.

(** the value of attribute-missing (attr_refs.rs:80-90) *)
Inductive missing_mode := MSkip | MWarn | MDrop | MDropLine.
Definition missing_of (v : option attr_value) : missing_mode :=
  match v with
  | Some (AStr s) => if bytes_eqb (b s) ($"drop") then MDrop else if bytes_eqb (b s) ($"drop-line") then MDropLine
                     else if bytes_eqb (b s) ($"warn") then MWarn else MSkip
  | _ => MSkip
  end.

(** attr_refs.rs:44-100, for one token: the tokens pushed on the line, the names found missing (reported if [MWarn], making the
    line disappear if [MDropLine]), and the lexer with the value as its next input. Simplification: the special source location
    of pass-macro values (attr_refs.rs:62-72) and the attr_replacement flags are left out. *)
Definition push_token (get : lookup) (k : rtok) (r : root) : list rtok * list bytes * root :=
  match k_kind k with
  | AttrRef =>
      match get (lowercase (attr_name (k_lexeme k))) with
      | Some (AStr v) => ([k], [], if bytes_eqb (b v) [] then r else set_tmp_buf (b v) (Repeat (k_loc k)) r)
      | _ =>
          match missing_of (get ($"attribute-missing")) with
          | MDrop | MDropLine => ([], [attr_name (k_lexeme k)], r)
          | MSkip | MWarn => ([mkRtok Word (k_lexeme k) (k_loc k)], [attr_name (k_lexeme k)], r)
          end
      end
  | _ => ([k], [], r)
  end.
(** parser.rs:119-134, for a line that does not begin with a colon. [None]: [fuel] was too small. *)
Fixpoint read_refs (get : lookup) (plugins : list bytes) (fuel : nat) (r : root) : outcome (option (list rtok * list bytes * root)) :=
  match fuel with
  | O => Ret None
  | S f =>
      match at_newline r, is_eof r with
      | Panic, _ | _, Panic => Panic
      | Ret false, Ret false =>
          match next_tok plugins r with
          | Panic => Panic
          | Ret (k, r1) =>
              let '(out, ms, r2) := push_token get k r1 in
              match read_refs get plugins f r2 with
              | Panic => Panic
              | Ret None => Ret None
              | Ret (Some (ks, ms', r3)) => Ret (Some (out ++ ks, ms ++ ms', r3))
              end
          end
      | _, _ => Ret (Some ([], [], r))
      end
  end.
(** line.rs reassemble_src: the references that were replaced are in the line, but not in its text. *)
Definition line_text (ks : list rtok) : bytes :=
  concat (map k_lexeme (filter (fun k => match k_kind k with AttrRef => false | _ => true end) ks)).

(** parser.rs:108-141: the next line that is not dropped, as the text it stands for, and the references reported missing (with
    attribute-missing set to warn). Simplifications: directives are modelled in IfdefModel.v and attribute entries (lines
    beginning with a colon) are left out here, so the lines read are others; in strict mode a report ends the parse. *)
Fixpoint next_refs_line (get : lookup) (plugins : list bytes) (fuel : nat) (r : root) : outcome (option (option bytes * list bytes * root)) :=
  match fuel with
  | O => Ret None
  | S f =>
      match is_eof r with
      | Panic => Panic
      | Ret true => Ret (Some (None, [], r))
      | Ret false =>
          match read_refs get plugins f r with
          | Panic => Panic
          | Ret None => Ret None
          | Ret (Some (ks, ms, r1)) =>
              match skip_newline r1 with
              | Panic => Panic
              | Ret r2 =>
                  match missing_of (get ($"attribute-missing")), ms with
                  | MDropLine, _ :: _ => next_refs_line get plugins f r2
                  | MWarn, _ => Ret (Some (Some (line_text ks), ms, r2))
                  | _, _ => Ret (Some (Some (line_text ks), [], r2))
                  end
              end
          end
      end
  end.
(** All lines, as the callers of read_line take them one after the other. *)
Fixpoint all_refs_lines (get : lookup) (plugins : list bytes) (fuel : nat) (r : root) : outcome (option (list bytes * list bytes)) :=
  match fuel with
  | O => Ret None
  | S f =>
      match next_refs_line get plugins f r with
      | Panic => Panic
      | Ret None => Ret None
      | Ret (Some (None, ws, _)) => Ret (Some ([], ws))
      | Ret (Some (Some l, ws, r1)) =>
          match all_refs_lines get plugins f r1 with
          | Ret (Some (ls, ws')) => Ret (Some (l :: ls, ws ++ ws'))
          | x => x
          end
      end
  end.

(** ** references in values: parse_doc_attrs.rs:250-260, regx.rs:7 (braces around characters that are neither white space nor a
    closing brace, at least one) *)
Fixpoint name_run (s : bytes) : bytes :=
  match s with
  | [] => []
  | c :: t => match strip_any white s with Some _ => [] | None => if Ascii.eqb c "}"%char then [] else c :: name_run t end
  end.
Definition value_of (get : lookup) (n : bytes) : bytes := match get n with Some (AStr v) => b v | _ => [] end.
Fixpoint replace_vals (get : lookup) (fuel : nat) (s : bytes) : bytes :=
  match fuel with
  | O => s
  | S f =>
      match s with
      | [] => []
      | c :: t =>
          if Ascii.eqb c "{"%char then
            match name_run t, skipn (length (name_run t)) t with
            | _ :: _, d :: rest => if Ascii.eqb d "}"%char then value_of get (name_run t) ++ replace_vals get f rest else c :: replace_vals get f t
            | _, _ => c :: replace_vals get f t
            end
          else c :: replace_vals get f t
      end
  end.
Definition replace_attr_vals (get : lookup) (s : bytes) : bytes := replace_vals get (length s) s.
