(** Model of the command line attribute definitions: cli/src/args.rs:66-90. Text is ASCII: the letters outside it that the regular
    expression's [\w] also matches are not modelled. *)
From Verif Require Import Base Text AttrRefsModel.

Inductive setting := SetBool (v : bool) | SetStr (v : bytes).
Record job_attr := JobAttr { readonly : bool; setting_of : setting }.

(** args.rs:66-68: the parts of a match *)
Record attr_match := AttrMatch { bang1 : bool; at1 : bool; key : bytes; bang2 : bool; at2 : bool; val : option bytes }.
Definition word_char (c : ascii) : bool :=
  let n := N_of_ascii c in ((48 <=? n) && (n <=? 57) || (65 <=? n) && (n <=? 90) || (n =? 95) || (97 <=? n) && (n <=? 122))%N.
Definition name_char (c : ascii) : bool := word_char c || Ascii.eqb c "-"%char.
Definition opt_char (c : ascii) (s : bytes) : bool * bytes :=
  match s with d :: r => if Ascii.eqb c d then (true, r) else (false, s) | [] => (false, s) end.
Fixpoint take_while (f : ascii -> bool) (s : bytes) : bytes * bytes :=
  match s with c :: r => if f c then let '(x, y) := take_while f r in (c :: x, y) else ([], s) | [] => ([], []) end.
(** a match at the start of [s]; parts that may be missing are taken when they are there, and giving one back never helps *)
Definition match_at (s : bytes) : option attr_match :=
  let '(b1, s1) := opt_char "!"%char s in
  let '(a1, s2) := opt_char "@"%char s1 in
  match s2 with
  | c :: r =>
      if word_char c then
        let '(more, s3) := take_while name_char r in
        let '(b2, s4) := opt_char "!"%char s3 in
        let '(a2, s5) := opt_char "@"%char s4 in
        let v := match s5 with
                 | "="%char :: s6 => match fst (take_while (fun c => negb (Ascii.eqb c (ascii_of_N 10))) s6) with [] => None | v => Some v end
                 | _ => None
                 end in
        Some (AttrMatch b1 a1 (c :: more) b2 a2 v)
      else None
  | [] => None
  end.
(** the search: the first place where there is a match *)
Fixpoint search (s : bytes) : option attr_match :=
  match match_at s with Some m => Some m | None => match s with [] => None | _ :: r => search r end end.
(** [str::trim_end_matches('@')] *)
Fixpoint strip_ats (s : bytes) : bytes :=
  match s with [] => [] | c :: r => match strip_ats r with [] => if Ascii.eqb c "@"%char then [] else [c] | t => c :: t end end.
Definition ends_with_at (s : bytes) : bool := match rev s with "@"%char :: _ => true | _ => false end.
Inductive arg_error := InvalidAttribute | UnsetWithValue.
(** args.rs:70-90 *)
Definition parse_attr (input : bytes) : result (bytes * job_attr) arg_error :=
  match search input with
  | None => Err InvalidAttribute
  | Some m =>
      let k := lowercase (key m) in
      match bang1 m || bang2 m, at1 m || at2 m, val m with
      | false, false, None => Ok (k, JobAttr true (SetBool true))
      | false, true, None => Ok (k, JobAttr false (SetBool true))
      | true, false, None => Ok (k, JobAttr true (SetBool false))
      | true, true, None => Ok (k, JobAttr false (SetBool false))
      | false, true, Some v => Ok (k, JobAttr false (SetStr v))
      | false, false, Some v =>
          if ends_with_at v then Ok (k, JobAttr false (SetStr (strip_ats v))) else Ok (k, JobAttr true (SetStr v))
      | true, _, Some _ => Err UnsetWithValue
      end
  end.
