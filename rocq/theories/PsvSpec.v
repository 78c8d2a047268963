(** What pipe separated tables should be, stated without the parser's own functions. *)
From Verif Require Export TableModel.
From Verif Require Import Text ColsModel.
Open Scope nat_scope.

(** What a reader of the page sees of a cell whatever its style: the columns and rows it spans and its tokens, without white space at the
    end or line ends at the start. *)
Definition shape := (nat * nat * list ttok)%type.
Definition shape_of_cell (c : cell) : shape := (c_cols c, c_rows c, drop_while nl (c_toks c)).
Definition core (body : list ttok) : list ttok := drop_while nl (trim_end body).
Definition shape_of (c : cell_spec * list ttok) : shape := (or_default (col_span (fst c)) 1, or_default (row_span (fst c)) 1, core (snd c)).
(** how often it is to appear: [0*|] is read as [1*|] *)
Definition copies (s : cell_spec) : nat := Nat.max 1 (or_default (duplication s) 1).
Definition expand (cells : list (cell_spec * list ttok)) : list shape := flat_map (fun c => repeat (shape_of c) (copies (fst c))) cells.

(** all rows of the table, top to bottom *)
Definition opt_row (o : option (list cell)) : list (list cell) := match o with Some r => [r] | None => [] end.
Definition all_rows (t : read_table) : list (list cell) := opt_row (t_header (rt_table t)) ++ t_rows (rt_table t) ++ opt_row (rt_footer t).

(** no line end is taken for a separator *)
Definition lexed (sep : bytes) (l : list ttok) : Prop := forall t, In t l -> nl t = true -> starts_with sep (tx t) = false.

(** The cells the reader finds from one point of the source to another: at each, whether columns are still counted, the problems so far and
    the tokens left. *)
Definition point := (bool * list problem * list ttok)%type.
Inductive reads (sep : bytes) (n : nat) : point -> list (cell_spec * list ttok) -> point -> Prop :=
| r_nil p : reads sep n p [] p
| r_cons c ps l x l1 c1 ps1 xs e : psv_cell (S (size l)) sep n c ps l = Done (Some x, l1, c1, ps1) -> reads sep n (c1, ps1, l1) xs e -> reads sep n (c, ps, l) (x :: xs) e.
(** all the cells, and all the problems *)
Definition stream (sep : bytes) (n : nat) (p : point) (cells : list (cell_spec * list ttok)) (ps' : list problem) : Prop :=
  exists c ps l l' c', reads sep n p cells (c, ps, l) /\ psv_cell (S (size l)) sep n c ps l = Done (None, l', c', ps').

(** ** Cells as they are written *)
(** the text of a cell: a token without the separator, or an escaped separator *)
Inductive item := Plain (t : ttok) | Escaped (b s : ttok).
Definition item_src (i : item) : list ttok := match i with Plain t => [t] | Escaped b s => [b; s] end.
Definition item_val (i : item) : ttok := match i with Plain t => t | Escaped _ s => s end.
(** the separator as a token of its own, which is not also a part of a specification *)
Definition is_sep (sep : bytes) (s : ttok) : Prop :=
  tx s = sep /\ ar s = false /\ ~ In (tk s) [Digits; Dots; LessThan; GreaterThan; Caret; CalloutNumber; Whitespace; Newline] /\
  (tk s = Word -> forall c r, tx s = c :: r -> ~ In c ($"adehlmsv")).
Definition item_ok (sep : bytes) (i : item) : Prop :=
  match i with
  | Plain t => forall a z, tx t <> a ++ sep ++ z
  | Escaped b s => tk b = Backslash /\ (forall a z, tx b <> a ++ sep ++ z) /\ is_sep sep s
  end.
(** A text ends in white space. *)
Definition text_ok (sep : bytes) (text : list item) : Prop := Forall (item_ok sep) text /\ exists x w, text = x ++ [Plain w] /\ wsish w = true.
(** the tokens of a specification, [3*2.4+>.^s] *)
Definition number (n : nat) (t : ttok) : Prop := tk t = Digits /\ numeral 256 (tx t) (N.of_nat n).
Definition of_kind (k : kind) (t : ttok) : Prop := tk t = k.
Definition dot (t : ttok) : Prop := tk t = Dots /\ length (tx t) = 1.
Inductive wr_dup : option nat -> list ttok -> Prop :=
| wd_none : wr_dup None []
| wd_some n a b : number n a -> of_kind Star b -> wr_dup (Some n) [a; b].
Inductive wr_span : option nat -> option nat -> list ttok -> Prop :=
| ws_none : wr_span None None []
| ws_cols n a p : number n a -> of_kind Plus p -> wr_span (Some n) None [a; p]
| ws_rows n d a p : number n a -> dot d -> of_kind Plus p -> wr_span None (Some n) [d; a; p]
| ws_both n m a d b p : number n a -> dot d -> number m b -> of_kind Plus p -> wr_span (Some n) (Some m) [a; d; b; p].
Definition h_kind (h : halign) : kind := match h with HLeft => LessThan | HCenter => Caret | HRight => GreaterThan end.
Definition v_kind (v : valign) : kind := match v with VTop => LessThan | VMiddle => Caret | VBottom => GreaterThan end.
(** [<.>] is one token *)
Inductive wr_align : option halign -> option valign -> list ttok -> Prop :=
| wa_none : wr_align None None []
| wa_h h a : of_kind (h_kind h) a -> wr_align (Some h) None [a]
| wa_v v d a : dot d -> of_kind (v_kind v) a -> wr_align None (Some v) [d; a]
| wa_both h v a d b : of_kind (h_kind h) a -> dot d -> of_kind (v_kind v) b -> wr_align (Some h) (Some v) [a; d; b]
| wa_callout (a : ttok) : tk a = CalloutNumber -> tx a = $"<.>" -> wr_align (Some HLeft) (Some VBottom) [a].
Inductive wr_style : option style -> list ttok -> Prop :=
| wy_none : wr_style None []
| wy_some st c (a : ttok) : In (c, st) [("a"%char, SAsciiDoc); ("d"%char, SDefault); ("e"%char, SEmphasis); ("h"%char, SHeader); ("l"%char, SLiteral); ("m"%char, SMonospace); ("s"%char, SStrong)] ->
    tk a = Word -> tx a = [c] -> wr_style (Some st) [a].
Definition wr_spec (s : cell_spec) (l : list ttok) : Prop :=
  exists a b c d, l = a ++ b ++ c ++ d /\ wr_dup (duplication s) a /\ wr_span (col_span s) (row_span s) b /\ wr_align (spec_h s) (spec_v s) c /\ wr_style (spec_style s) d.
(** a cell: the tokens of its specification, the separator, its text *)
Record written := Written { w_spec : cell_spec; w_toks : list ttok; w_sep : ttok; w_text : list item }.
Definition cell_ok (sep : bytes) (w : written) : Prop :=
  wr_spec (w_spec w) (w_toks w) /\ is_sep sep (w_sep w) /\ text_ok sep (w_text w) /\
  Forall (fun t => ar t = false /\ forall a z, tx t <> a ++ sep ++ z) (w_toks w).
Definition source (w : written) : list ttok := w_toks w ++ w_sep w :: flat_map item_src (w_text w).
Definition content (w : written) : cell_spec * list ttok := (w_spec w, drop_while ws (map item_val (w_text w))).

(** ** Headers *)
(** a cell after whose text two line ends follow at once, and one with an empty line in its text *)
Definition ends_blank (body : list ttok) : bool := match skipn (length (trim_end body)) body with a :: b :: _ => nl a && nl b | _ => false end.
Definition holds_blank (body : list ttok) : bool := has_blank_line (trim_end body).
(** what a cell tells about a header that is not asked for or ruled out by the options *)
Definition after (h : header) (body : list ttok) : header :=
  match h with HUnknown => if ends_blank body then HImplicit else if holds_blank body then HNone else HUnknown | _ => h end.

(** ** Lines *)
Definition no_nl (l : list ttok) : bool := forallb (fun t => negb (nl t)) l.

(** ** Grids *)
(** the columns that cells of the rows above, nearest first, take in a row *)
Fixpoint hanging (above : list (list shape)) (distance : nat) : nat :=
  match above with
  | [] => 0
  | r :: above => list_sum (map (fun s => if distance <? snd (fst s) then fst (fst s) else 0) r) + hanging above (S distance)
  end.
Definition row_width (r : list shape) : nat := list_sum (map (fun s => fst (fst s)) r).
(** every row fills the columns its neighbours above leave; a row into which cells hang starts none that hang further *)
Fixpoint fills (n : nat) (above : list (list shape)) (rows : list (list shape)) : Prop :=
  match rows with
  | [] => hanging above 1 < n
  | r :: rows =>
      hanging above 1 + row_width r = n /\ Forall (fun s => 1 <= fst (fst s)) r /\
      (0 < hanging above 1 -> Forall (fun s => snd (fst s) <= 1) r) /\ fills n (r :: above) rows
  end.
(** no two cells of a row one of which spans rows and one of which spans columns *)
Definition one_way (l : list shape) : Prop := Forall (fun x => snd (fst x) <= 1) l \/ Forall (fun x => fst (fst x) = 1) l.
(** the cells of a row as it is written *)
Definition written_row (ws : list written) : list shape := expand (map content ws).
