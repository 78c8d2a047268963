(** Model of attribute entries in a document — parser/src/tasks/parse_doc_attrs.rs:6-266. The source is given from the colon on; what is left of it takes the place of positions.
    Not modelled: the locations of the parts, the observer (154-157), and what is done with the value afterwards: leveloffset (169-171), authors (174-192) and the table of attributes (AttrsModel.v). *)
From Verif Require Import Base Text LexerModel AttrRefsModel.
Import ListNotations.

Inductive value := VStr (x : bytes) | VBool (v : bool).
(** [conflict]: an error is reported (142-144), the value is used nevertheless *)
Record def := Def { d_name : bytes; d_value : value; d_rest : bytes; d_conflict : bool }.

(** 264-266 *)
Definition word_char (c : ascii) : bool := alnum c || Ascii.eqb c "_" || Ascii.eqb c "-".
(** 44-68: the name after its first character, whether a bang ends it, and what comes after the colon *)
Fixpoint name_end (s : bytes) : option (bytes * bool * bytes) :=
  match s with
  | [] => None
  | c :: r => if word_char c then match name_end r with Some (n, t, v) => Some (c :: n, t, v) | None => None end
              else if Ascii.eqb c "!" then match r with d :: v => if Ascii.eqb d ":" then Some ([], true, v) else None | [] => None end
              else if Ascii.eqb c ":" then Some ([], false, r)
              else None
  end.
(** 69-72 and 113-123: up to the end of the line *)
Definition at_eol (s : bytes) : bool := match s with [] => true | c :: r => Ascii.eqb c LF || Ascii.eqb c CR && match r with d :: _ => Ascii.eqb d LF | [] => false end end.
Fixpoint to_eol (s : bytes) : bytes * bytes :=
  match s with
  | [] => ([], [])
  | c :: r => if at_eol s then ([], s) else let (l, z) := to_eol r in (c :: l, z)
  end.
Definition soft : bytes := [" "%char; "\"%char].
(** 95-131: lines that are continued. [v]: the text after the colon; the code looks at the text from the first colon on, which ends in a colon where [v] starts.
    106: the byte after the end of the line is looked at, not the one at it. [Panic]: 124-126, the source ends behind the backslash. *)
Fixpoint gather (fuel : nat) (v rest : bytes) : outcome (bytes * bytes) :=
  if ends_with v soft then
    let v := removelast v in
    let v := if ends_with v $" + " then removelast v ++ [LF] else v in
    match rest with
    | [] => Panic
    | _ :: r =>
        let r := match r with c :: r' => if Ascii.eqb c CR then r' else r | [] => r end in
        let (l, z) := to_eol r in
        match fuel with O => Panic | S f => gather f (v ++ l) z end
    end
  else Ret (v, rest).

(** 211-248, core/src/regx.rs:20-23; digits of other scripts are not modelled *)
Definition some_of (f : ascii -> bool) (s : bytes) : bool := match s with [] => false | _ => forallb f s end.
Definition entity_name (s : bytes) : bool :=
  match s with
  | c :: r => if Ascii.eqb c "#" then some_of digit r || match r with x :: h => Ascii.eqb x "x" && some_of hexdigit h | [] => false end else alpha c && some_of alnum r
  | [] => false
  end.
Definition simple_entity (s : bytes) : option bytes :=
  if starts_with $"pass:[&" s && ends_with s $";]" && (9 <=? length s) then
    let e := removelast (skipn 6 s) in
    if entity_name (removelast (skipn 1 e)) then Some e else None
  else None.
(** a hyphen may stand in all names but the first *)
Fixpoint pass_more (after_comma : bool) (s : bytes) : option bytes :=
  match s with
  | [] => None
  | c :: r => let n := nat_of_ascii c in
              if Ascii.eqb c "[" then (if after_comma then None else Some r)
              else if (97 <=? n) && (n <=? 122) || Ascii.eqb c "-" then pass_more false r
              else if Ascii.eqb c "," then (if after_comma then None else pass_more true r)
              else None
  end.
Fixpoint pass_first (empty : bool) (s : bytes) : option bytes :=
  match s with
  | [] => None
  | c :: r => let n := nat_of_ascii c in
              if Ascii.eqb c "[" then Some r
              else if (97 <=? n) && (n <=? 122) then pass_first false r
              else if Ascii.eqb c "," then (if empty then None else pass_more true r)
              else None
  end.
Definition wrapped_footnote (s : bytes) : bool :=
  match pass_first true (skipn 5 s) with
  | Some r => starts_with $"footnote:" r && ends_with (skipn 9 r) $"]]" && negb (contains_byte LF (removelast (removelast (skipn 9 r))))
  | None => false
  end.
Definition pass_macro (s : bytes) : bytes :=
  if starts_with $"pass:" s then
    match simple_entity s with
    | Some e => e
    | None => if wrapped_footnote s then ESC :: tl s else s
    end
  else s.

Section Def.
(** what the document's attributes answer, and whether the header is being read *)
Variables (get : lookup) (in_header : bool).
(** 138-152 *)
Definition def_value (unset : bool) (v : bytes) : value :=
  match trim v with
  | [] => VBool (negb unset)
  | x => VStr (pass_macro (if contains_byte "{"%char v && in_header then replace_attr_vals get x else x))
  end.
(** 6-202: [None]: the token stays a colon. The brace may be in any line of the value. *)
Definition attr_def (s : bytes) : outcome (option def) :=
  match s with
  | c :: r =>
      if length s <? 4 then Ret None
      else
        let (lead, r) := match r with d :: r' => if Ascii.eqb d "!" then (true, r') else (false, r) | [] => (false, r) end in
        match r with
        | [] => Panic
        | f :: r =>
            if alnum f || Ascii.eqb f "_" then
              match name_end r with
              | None => Ret None
              | Some (n, trail, t) =>
                  let (v, rest) := to_eol t in
                  match gather (length s) v rest with
                  | Panic => Panic
                  | Ret (v, rest) => let unset := lead || trail in
                                     Ret (Some (Def (lowercase (f :: n)) (def_value unset v) rest (unset && match trim v with [] => false | _ => true end)))
                  end
              end
            else Ret None
        end
  | [] => Ret None
  end.
End Def.
