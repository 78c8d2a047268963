(** Model of attribute lists and anchors: parser/src/tasks/parse_attr_list.rs, with the tests on lines that admit them (parser/src/line.rs).
    The value of an attribute is given as the tokens handed to the inline parser (parse_attr_list.rs:356-374). Locations are left out. An error is recorded and parsing goes on, as when the parser
    is not strict; a strict parser stops at the first. *)
From Verif Require Export LineModel.

(** ast/src/attr_list.rs:4-12, and the errors reported *)
Inductive error := OnlyShorthand | InvalidList | EmptyId | SecondId | InvalidId.
Record attrs := Attrs { positional : list (option (list tok)); named : list (bytes * list tok); options : list bytes; roles : list bytes; aid : option bytes; errors : list error }.
Definition no_attrs : attrs := Attrs [] [] [] [] None [].
(** ast/src/attr_list.rs:191-194: a named attribute takes a place among the positional ones *)
Definition push_positional (v : option (list tok)) (a : attrs) : attrs := Attrs (positional a ++ [v]) (named a) (options a) (roles a) (aid a) (errors a).
Definition insert_named (k : bytes) (v : list tok) (a : attrs) : attrs := Attrs (positional a ++ [None]) (named a ++ [(k, v)]) (options a) (roles a) (aid a) (errors a).
Definition add_options (o : list bytes) (a : attrs) : attrs := Attrs (positional a) (named a) (options a ++ o) (roles a) (aid a) (errors a).
Definition add_roles (r : list bytes) (a : attrs) : attrs := Attrs (positional a) (named a) (options a) (roles a ++ r) (aid a) (errors a).
Definition set_id (i : bytes) (a : attrs) : attrs := Attrs (positional a) (named a) (options a) (roles a) (Some i) (errors a).
Definition err (e : error) (a : attrs) : attrs := Attrs (positional a) (named a) (options a) (roles a) (aid a) (errors a ++ [e]).

(** parse_attr_list.rs:575-581: the marks of attribute references are dropped *)
Definition non_attr (l : list tok) : list tok := filter (fun t => negb (is_k AttrRef t)) l.
(** parse_attr_list.rs:561-569 *)
Fixpoint trim_front (l : list tok) : list tok := match l with t :: r => if is_k Whitespace t then trim_front r else l | [] => [] end.
Definition trim (l : list tok) : list tok := rev (trim_front (rev (trim_front l))).
(** parse_attr_list.rs:550-559 *)
Definition unquote (l : list tok) : list tok :=
  if (1 <? length l) && (at_k DoubleQuote (hd_error l) && at_k DoubleQuote (last_token l) || at_k SingleQuote (hd_error l) && at_k SingleQuote (last_token l))
  then removelast (tl l) else l.

(** parse_attr_list.rs:388-391, 398-401: drop delimiters (newest first) until [k] are left, counting their tokens and commas *)
Fixpoint pop_to (k : nat) (ds : list nat) (n : nat) : list nat * nat :=
  match ds with
  | d :: r => if k <? length ds then pop_to k r (n + d + 1) else (ds, n)
  | [] => ([], n)
  end.
(** parse_attr_list.rs:381-411: delimiters so far (newest first), tokens since the last, delimiters at the open double quote, and at the open single quote *)
Fixpoint scan_delims (l : list tok) (ds : list nat) (n : nat) (dbl sgl : option nat) : list nat :=
  match l with
  | [] => ds
  | t :: r =>
      if is_k DoubleQuote t then
        match dbl with
        | None => scan_delims r ds (S n) (Some (length ds)) sgl
        | Some k => let (ds', n') := pop_to k ds (S n) in scan_delims r ds' n' None sgl
        end
      else if is_k SingleQuote t then
        match sgl with
        | None => scan_delims r ds (S n) dbl (Some (length ds))
        | Some k => let (ds', n') := pop_to k ds (S n) in scan_delims r ds' n' dbl None
        end
      else if is_k Comma t then scan_delims r (n :: ds) 0 dbl sgl
      else if is_k CloseBracket t then ds
      else scan_delims r ds (S n) dbl sgl
  end.
(** parse_attr_list.rs:376-413: the lengths of all items but the last. [line] is not empty. *)
Definition find_delimiters (line : list tok) : list nat := rev (scan_delims (removelast line) [] 0 None None).

(** parse_attr_list.rs:183-190: take the items; a comma follows each. [Panic]: too few tokens, or something else follows. *)
Fixpoint take_items (ds : list nat) (line : list tok) : outcome (list (list tok) * list tok) :=
  match ds with
  | [] => Ret ([], line)
  | d :: r =>
      match skipn d line with
      | t :: rest => if is_k Comma t then match take_items r rest with Ret (items, rest) => Ret (firstn d line :: items, rest) | Panic => Panic end else Panic
      | [] => Panic
      end
  end.
(** parse_attr_list.rs:199-202: up to the first closing bracket that no backslash precedes, which is not the current token *)
Fixpoint take_open (line : list tok) : outcome (list tok * list tok) :=
  match line with
  | [] => Panic
  | t :: r =>
      if at_k CloseBracket (hd_error r) && negb (is_k Backslash t) then Ret ([t], r)
      else match take_open r with Ret (i, rest) => Ret (t :: i, rest) | Panic => Panic end
  end.
(** parse_attr_list.rs:192-203: the last item. [Panic]: no tokens are left. *)
Definition take_last (full : bool) (line : list tok) : outcome (list tok * list tok) :=
  match line with
  | [] => Panic
  | _ => if full then Ret (removelast line, skipn (length line - 1) line)
         else if current_is CloseBracket line then Ret ([], line) else take_open line
  end.
(** parse_attr_list.rs:181-203: the items of a list, and the tokens after them. (The code parses each item as it takes it.) *)
Definition split_items (full : bool) (line : list tok) : outcome (list (list tok) * list tok) :=
  match take_items (find_delimiters line) line with
  | Panic => Panic
  | Ret (items, line) => match take_last full line with Ret (i, rest) => Ret (items ++ [i], rest) | Panic => Panic end
  end.

(** parse_attr_list.rs:441-464 *)
Fixpoint subgroups (sep : kind) (current : list tok) (l : list tok) : list (list tok) :=
  let done := match trim current with [] => [] | g => [g] end in
  match l with
  | [] => done
  | t :: r => if is_k sep t then done ++ subgroups sep [] r else subgroups sep (if is_k AttrRef t then current else current ++ [t]) r
  end.

(** parse_attr_list.rs:533-541 *)
Inductive attr_ir := IPositional (ts : list tok) (with_shorthand : bool) | INamed (k : bytes) (ts : list tok) | IOptions (gs : list (list tok)) | IRoles (gs : list (list tok)) | IShorthand (ts : list tok) | IId (ts : list tok).

(** parse_attr_list.rs:419-429: the rest of the name, up to the equal signs. [Panic]: none. *)
Fixpoint key_rest (l : list tok) : outcome (bytes * list tok) :=
  match l with
  | [] => Panic
  | t :: r =>
      if is_k EqualSigns t then Ret ([], r)
      else match key_rest r with Ret (x, m) => Ret ((if is_k Whitespace t then x else tx t ++ x), m) | Panic => Panic end
  end.
(** parse_attr_list.rs:415-439 *)
Definition key_value (l : list tok) : outcome attr_ir :=
  match l with
  | [] => Panic
  | t :: r =>
      match key_rest r with
      | Panic => Panic
      | Ret (x, m) =>
          let name := tx t ++ x in
          let v := unquote (if at_k Whitespace (hd_error m) then tl m else m) in
          Ret (if bytes_eqb name $"options" || bytes_eqb name $"opts" then IOptions (subgroups Comma [] v)
               else if bytes_eqb name $"role" then IRoles (subgroups Whitespace [] v)
               else if bytes_eqb name $"id" then IId v
               else INamed name v)
      end
  end.
(** parse_attr_list.rs:471-497: what the first telling token makes of an item of [total] tokens, and if a shorthand symbol was seen before it *)
Inductive how := HShorthand | HPositional | HKeyValue.
Definition symbol (t : tok) : bool := one_of [Dots; Hash; Percent] t && len_is 1 t.
Definition is_equals (o : option tok) : bool := match o with Some t => is_k EqualSigns t && bytes_eqb (tx t) $"=" | None => false end.
Fixpoint decide (shorthand : bool) (total i : nat) (saw : bool) (l : list tok) : option how * bool :=
  match l with
  | [] => (None, saw)
  | t :: r =>
      if symbol t then
        if shorthand && (i =? 0) && (1 <? total) then (Some HShorthand, saw) else decide shorthand total (S i) (negb (at_k Whitespace (hd_error r))) r
      else if one_of [DoubleQuote; SingleQuote] t then (Some HPositional, saw)
      else if is_k Whitespace t && negb (is_equals (hd_error r)) then (Some HPositional, saw)
      else if is_k EqualSigns t && (i =? 0) then (Some HPositional, saw)
      else if is_k EqualSigns t && len_is 1 t then (Some HKeyValue, saw)
      else decide shorthand total (S i) saw r
  end.
(** parse_attr_list.rs:466-511 *)
Definition item_ir (shorthand : bool) (l : list tok) : outcome attr_ir :=
  match decide shorthand (length l) 0 false l with
  | (Some HShorthand, _) => Ret (IShorthand l)
  | (Some HKeyValue, _) => key_value l
  | (_, saw) => let u := unquote l in Ret (IPositional u (saw && (length u =? length l)))
  end.

(** parse_attr_list.rs:323: where a shorthand ends *)
Definition stop : list tspec := [Kind Hash; Kind Percent; Len 1 Dots].
(** parse_attr_list.rs:324-350. [Panic]: unreachable!, or out of fuel. *)
Fixpoint shorthands (fuel : nat) (l : list tok) (a : attrs) : outcome attrs :=
  match fuel, l with
  | O, _ => Panic
  | _, [] => Ret a
  | S f, [t] => Ret (err InvalidId a)
  | S f, t :: r =>
      let (x, m) := until_one_of stop r in
      if is_k Dots t && len_is 1 t then shorthands f m (add_roles [x] a)
      else if is_k Hash t then match aid a with Some _ => Ret (err SecondId a) | None => shorthands f m (set_id x a) end
      else if is_k Percent t then shorthands f m (add_options [x] a)
      else Panic
  end.

(** parse_attr_list.rs:277-279: the tokens before the first shorthand symbol. [Panic]: none. *)
Fixpoint before_symbol (l : list tok) : outcome (list tok * list tok) :=
  match l with
  | [] => Panic
  | t :: r => if one_of [Hash; Percent; Dots] t then Ret ([], l) else match before_symbol r with Ret (x, m) => Ret ((if is_k AttrRef t then x else t :: x), m) | Panic => Panic end
  end.

(** parse_attr_list.rs:215-354. The role of formatted text is the source of its tokens (the code takes it from the location of the parsed nodes). [Panic]: [unwrap] on an empty item, or out of fuel. *)
Fixpoint parse_attr (fuel : nat) (formatted shorthand : bool) (l : list tok) (a : attrs) : outcome attrs :=
  match fuel with
  | O => Panic
  | S f =>
      match trim l with
      | [] => Ret (push_positional None a)
      | l =>
          match item_ir shorthand l with
          | Panic => Panic
          | Ret (IPositional ts with_shorthand) =>
              if formatted then
                match roles a, ts with
                | [], [] => Ret a
                | [], _ => Ret (add_roles [text_of ts] a)
                | _, [] => Panic
                | _, _ => Ret (err OnlyShorthand a)
                end
              else if with_shorthand && shorthand then
                match before_symbol ts with
                | Panic => Panic
                | Ret ([], _) => Ret (err InvalidList a)
                | Ret (p, m) => parse_attr f formatted true m (push_positional (Some p) a)
                end
              else Ret (push_positional (Some ts) a)
          | Ret (INamed k ts) => if formatted then Ret (err OnlyShorthand a) else Ret (insert_named k ts a)
          | Ret (IOptions gs) => if formatted then match gs with [] => Panic | _ => Ret (err OnlyShorthand a) end else Ret (add_options (map text_of gs) a)
          | Ret (IRoles gs) => if formatted then match gs with [] => Panic | _ => Ret (err OnlyShorthand a) end else Ret (add_roles (map text_of gs) a)
          | Ret (IId ts) =>
              if formatted then match ts with [] => Panic | _ => Ret (err OnlyShorthand a) end
              else match ts with
                   | [] => Ret (err EmptyId a)
                   | _ => match aid a with Some _ => Ret (err SecondId a) | None => Ret (set_id (text_of ts) a) end
                   end
          | Ret (IShorthand ts) => shorthands (S (length ts)) ts a
          end
      end
  end.
Definition parse_item (formatted shorthand : bool) (i : list tok) (a : attrs) : outcome attrs := let l := non_attr i in parse_attr (S (length l)) formatted shorthand l a.
Fixpoint parse_items (formatted shorthand : bool) (items : list (list tok)) (a : attrs) : outcome attrs :=
  match items with
  | [] => Ret a
  | [i] => if negb formatted || existsb (is_k Word) (non_attr i) then parse_item formatted shorthand i a else Ret a
  | i :: r => match parse_item formatted shorthand i a with Ret a => parse_items formatted shorthand r a | Panic => Panic end
  end.
(** parse_attr_list.rs:166-213: the attributes, and the tokens after the list *)
Definition parse_attr_list (full formatted shorthand : bool) (line : list tok) : outcome (attrs * list tok) :=
  match line with
  | [] => Panic
  | t :: r =>
      if is_k CloseBracket t then Ret (no_attrs, r)
      else match split_items full line with
           | Panic => Panic
           | Ret (items, rest) =>
               match parse_items formatted shorthand items no_attrs with
               | Panic => Panic
               | Ret a => match rest with c :: m => if is_k CloseBracket c then Ret (a, m) else Panic | [] => Panic end
               end
           end
  end.
(** parse_attr_list.rs:6-32 *)
Definition block_attr_list := parse_attr_list true false true.
Definition block_macro_attr_list := parse_attr_list true false false.
Definition inline_macro_attr_list := parse_attr_list false false false.
Definition formatted_attr_list := parse_attr_list false true true.

(** parse_attr_list.rs:111-135: the number of tokens of the text of a link, or [None]: the list has attributes *)
Fixpoint link_scan (prev : kind) (quoted nested : bool) (n : nat) (l : list tok) : option nat :=
  match l with
  | [] => Some n
  | t :: r =>
      let k := tk t in
      if kind_eqb prev Backslash && kind_eqb k CloseBracket && nested then link_scan k quoted false (S n) r
      else if kind_eqb prev Backslash && one_of [CloseBracket; OpenBracket; DoubleQuote] t then link_scan k quoted nested (S n) r
      else if kind_eqb k DoubleQuote then link_scan k (negb quoted) nested (S n) r
      else if kind_eqb k OpenBracket then link_scan k quoted true (S n) r
      else if kind_eqb k CloseBracket then if nested then link_scan k quoted false (S n) r else Some n
      else if kind_eqb k EqualSigns && len_is 1 t && negb quoted then None
      else link_scan k quoted nested (S n) r
  end.
(** parse_attr_list.rs:110-164. In builds without debug assertions the token after the text is dropped whatever it is (160-161); [checked]: builds with them. *)
Definition link_attr_list (checked : bool) (line : list tok) : outcome (attrs * list tok) :=
  match line with
  | [] => Panic
  | c :: m =>
      match link_scan Eof false false 0 (removelast line) with
      | None => inline_macro_attr_list line
      | Some n =>
          if is_k CloseBracket c then Ret (no_attrs, m)
          else match skipn n line with
               | [] => Panic
               | t :: rest => if checked && negb (is_k CloseBracket t) then Panic else Ret (push_positional (Some (unquote (non_attr (firstn n line)))) no_attrs, rest)
               end
      end
  end.

(** parse_attr_list.rs:57-108: id, tokens of the reference text, and the tokens after the anchor. [line] starts after the two opening brackets. White space before the reference text is dropped
    (the code marks it as discarded, line.rs:855-859). *)
Fixpoint until_close (l : list tok) : outcome (list tok * list tok) :=
  match l with
  | [] => Panic
  | t :: r => if is_k CloseBracket t then Ret ([], l) else match until_close r with Ret (x, m) => Ret (t :: x, m) | Panic => Panic end
  end.
Definition parse_anchor (entire : bool) (line : list tok) : outcome (option (bytes * list tok) * list tok) :=
  match line with
  | [] => Panic
  | c :: _ =>
      if one_of [SingleQuote; DoubleQuote; Whitespace; CloseBracket; Digits; Comma] c then Ret (None, line)
      else
        let (id, r) := until_one_of [Kind Comma; Kind CloseBracket] line in
        match id, r with
        | [], _ => Panic
        | _, [] => Panic
        | _, t :: r =>
            if is_k CloseBracket t then Ret (Some (id, []), tl r)
            else
              let r := match r with w :: m => if is_k Whitespace w then m else r | [] => r end in
              if entire then
                match rev r with
                | x :: y :: m => if is_k CloseBracket x && is_k CloseBracket y then Ret (Some (id, rev m), []) else Panic
                | _ => Panic
                end
              else match until_close r with
                   | Ret (ref, _ :: y :: m) => if is_k CloseBracket y then Ret (Some (id, ref), m) else Panic
                   | _ => Panic
                   end
        end
  end.

(** line.rs:268-273: the whole line, from its opening bracket *)
Definition is_block_attr_list (l : list tok) : bool := current_is OpenBracket l && ends_with_nonescaped CloseBracket l && negb (at_k OpenBracket (peek l)).
(** line.rs:275-285 *)
Definition is_block_anchor (l : list tok) : bool :=
  starts_with_seq [Kind OpenBracket; Kind OpenBracket] l && (4 <? length l) && match nth_error l 2 with Some t => negb (one_of [SingleQuote; DoubleQuote; Whitespace] t) | None => false end &&
  ends_with_nonescaped CloseBracket l && at_k CloseBracket (nth_error l (length l - 2)) && ((5 <? length l) || at_k Word (nth_error l 2)).
(** line.rs:469-484: after the name of a macro; [xref]: the name is xref: *)
Definition continues_inline_macro (xref : bool) (l : list tok) : bool :=
  if current_is Whitespace l then false
  else match index_of_kind OpenBracket l, index_of_seq [Not Backslash; Kind CloseBracket] l with
       | Some o, Some e => if e <? o then false else negb (current_is Colon l) || xref
       | _, _ => false
       end.
(** line.rs:912-923: after an opening bracket *)
Definition continues_formatted_text_attr_list (l : list tok) : bool :=
  match l with
  | t :: _ =>
      if negb (one_of [OpenBracket; CloseBracket] t) then
        match index_of_seq [Kind CloseBracket; OneOf [Hash; Star; Underscore; Backtick; Tilde; Caret]] l with
        | Some i => negb (i =? 0) && match first_nonescaped CloseBracket l with Some j => i =? j | None => false end
        | None => false
        end
      else false
  | [] => false
  end.
(** line.rs:925-936: after an opening bracket *)
Definition continues_inline_anchor (l : list tok) : bool :=
  if starts_with_seq [Kind OpenBracket; OneOf [Word; Colon]] l then
    match index_of_seq [Kind CloseBracket; Kind CloseBracket] l with
    | Some i => match first_nonescaped CloseBracket l with Some j => i =? j | None => true end
    | None => false
    end
  else false.
