(** What an attribute list says, stated without the parser. *)
From Verif Require Import AttrListModel.

Definition free (ks : list kind) (l : list tok) : Prop := Forall (fun t => ~ In (tk t) ks) l.
Definition count (k : kind) (l : list tok) : nat := length (filter (is_k k) l).
Definition comma : tok := Tok Comma $",".
Definition equals : tok := Tok EqualSigns $"=".
Definition dq : tok := Tok DoubleQuote $"""".
Definition sq : tok := Tok SingleQuote $"'".
Definition wd (x : bytes) : tok := Tok Word x.
Definition sp : tok := Tok Whitespace $" ".
(** items with a comma between them *)
Fixpoint commas (items : list (list tok)) : list tok :=
  match items with [] => [] | [i] => i | i :: r => i ++ comma :: commas r end.

(** A quoted text: the quotes, and between them no closing bracket, no quote of the same sort, and quotes of the other sort in pairs. *)
Inductive chunk := Plain (t : tok) | InDouble (body : list tok) | InSingle (body : list tok).
Definition chunk_src (c : chunk) : list tok := match c with Plain t => [t] | InDouble b => dq :: b ++ [dq] | InSingle b => sq :: b ++ [sq] end.
Definition chunk_ok (c : chunk) : Prop :=
  match c with
  | Plain t => ~ In (tk t) [DoubleQuote; SingleQuote; Comma; CloseBracket]
  | InDouble b => free [DoubleQuote; CloseBracket] b /\ Nat.Even (count SingleQuote b)
  | InSingle b => free [SingleQuote; CloseBracket] b /\ Nat.Even (count DoubleQuote b)
  end.
Definition src (cs : list chunk) : list tok := flat_map chunk_src cs.

(** The attributes a list may hold. *)
Inductive mark := MId (x : list tok) | MRole (x : list tok) | MOption (x : list tok).
Inductive entry :=
| EEmpty
| EPos (v : list tok)                       (* words *)
| EQuoted (q : chunk)                       (* 'words' *)
| ENamed (name : bytes) (v : list tok)      (* name=words *)
| ENamedQ (name : bytes) (q : chunk)        (* name="words" *)
| ERoles (rs : list bytes)                  (* role="a b" *)
| EOptions (os : list bytes)                (* options="a,b" *)
| EId (x : bytes)                           (* id=a *)
| EShort (style : list tok) (ms : list mark) (* style#id.role%option *).

Definition body (q : chunk) : list tok := match q with Plain t => [t] | InDouble b | InSingle b => b end.
Fixpoint between (s : tok) (l : list bytes) : list tok := match l with [] => [] | [x] => [wd x] | x :: r => wd x :: s :: between s r end.
Definition mark_src (m : mark) : list tok := match m with MId x => Tok Hash $"#" :: x | MRole x => Tok Dots $"." :: x | MOption x => Tok Percent $"%" :: x end.
Definition mark_text (m : mark) : list tok := match m with MId x | MRole x | MOption x => x end.
Definition entry_src (e : entry) : list tok :=
  match e with
  | EEmpty => []
  | EPos v => v
  | EQuoted q => chunk_src q
  | ENamed n v => wd n :: equals :: v
  | ENamedQ n q => wd n :: equals :: chunk_src q
  | ERoles rs => wd $"role" :: equals :: dq :: between sp rs ++ [dq]
  | EOptions os => wd $"options" :: equals :: dq :: between comma os ++ [dq]
  | EId x => wd $"id" :: equals :: [wd x]
  | EShort st ms => st ++ flat_map mark_src ms
  end.

Definition ends_ok (v : list tok) : Prop := at_k Whitespace (hd_error v) = false /\ at_k Whitespace (last_token v) = false.
Definition plain (v : list tok) : Prop := free [DoubleQuote; SingleQuote; Comma; CloseBracket; AttrRef] v.
Definition quoted (q : chunk) : Prop := chunk_ok q /\ free [AttrRef] (body q) /\ match q with Plain _ => False | _ => True end.
Definition name_ok (n : bytes) : Prop := ~ In n [$"options"; $"opts"; $"role"; $"id"].
Definition entry_ok (shorthand : bool) (e : entry) : Prop :=
  match e with
  | EEmpty => True
  | EPos v => v <> [] /\ plain v /\ free [EqualSigns; Dots; Hash; Percent] v /\ ends_ok v
  | EQuoted q => quoted q
  | ENamed n v => name_ok n /\ plain v /\ ends_ok v
  | ENamedQ n q => name_ok n /\ quoted q
  | ERoles _ | EOptions _ | EId _ => True
  | EShort st ms => shorthand = true /\ plain st /\ free [EqualSigns; Dots; Hash; Percent; Whitespace] st /\ ms <> [] /\
      Forall (fun m => mark_text m <> [] /\ plain (mark_text m) /\ free [EqualSigns; Dots; Hash; Percent; Whitespace] (mark_text m)) ms
  end.

(** What they say. A named attribute takes a place among the positional ones, except for roles, options and id. *)
Definition says_positional (e : entry) : list (option (list tok)) :=
  match e with
  | EEmpty => [None] | EPos v => [Some v] | EQuoted q => [Some (body q)] | ENamed _ _ | ENamedQ _ _ => [None]
  | ERoles _ | EOptions _ | EId _ | EShort [] _ => []
  | EShort st _ => [Some st]
  end.
Definition says_named (e : entry) : list (bytes * list tok) := match e with ENamed n v => [(n, v)] | ENamedQ n q => [(n, body q)] | _ => [] end.
Definition says_roles (e : entry) : list bytes :=
  match e with ERoles rs => rs | EShort _ ms => flat_map (fun m => match m with MRole x => [text_of x] | _ => [] end) ms | _ => [] end.
Definition says_options (e : entry) : list bytes :=
  match e with EOptions os => os | EShort _ ms => flat_map (fun m => match m with MOption x => [text_of x] | _ => [] end) ms | _ => [] end.
Definition says_id (e : entry) : list bytes :=
  match e with EId x => [x] | EShort _ ms => flat_map (fun m => match m with MId x => [text_of x] | _ => [] end) ms | _ => [] end.

(** An entry with white space around it. *)
Record padded := Padded { before : list tok; what : entry; after : list tok }.
Definition padded_src (p : padded) : list tok := before p ++ entry_src (what p) ++ after p.
Definition padded_ok (shorthand : bool) (p : padded) : Prop := entry_ok shorthand (what p) /\ Forall (fun t => tk t = Whitespace) (before p) /\ Forall (fun t => tk t = Whitespace) (after p).
Definition meaning (ps : list padded) : attrs :=
  Attrs (flat_map (fun p => says_positional (what p)) ps) (flat_map (fun p => says_named (what p)) ps) (flat_map (fun p => says_options (what p)) ps)
        (flat_map (fun p => says_roles (what p)) ps) (hd_error (flat_map (fun p => says_id (what p)) ps)) [].

(** Texts with brackets in pairs, not nested: a[b]c *)
Inductive bracketed : list tok -> Prop :=
| B_nil : bracketed []
| B_tok t l : ~ In (tk t) [OpenBracket; CloseBracket; DoubleQuote; Backslash; EqualSigns; AttrRef] -> bracketed l -> bracketed (t :: l)
| B_pair o c b l : tk o = OpenBracket -> tk c = CloseBracket -> free [OpenBracket; CloseBracket; DoubleQuote; Backslash; EqualSigns; AttrRef] b -> bracketed l -> bracketed (o :: b ++ c :: l).

(** The id of an anchor: no comma and no bracket in it, and it does not start with a quote, white space or a digit. *)
Definition id_tokens (id : list tok) : Prop := free [Comma; CloseBracket] id /\ text_of id <> [] /\ match id with t :: _ => ~ In (tk t) [SingleQuote; DoubleQuote; Whitespace; CloseBracket; Digits; Comma] | [] => False end.
