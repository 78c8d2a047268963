(** What the columns of a table should be, said apart from the model's functions. *)
From Verif Require Import Base Text ColsModel.
From Coq Require Import QArith.
Open Scope nat_scope.

(** ** Widths *)
Definition written_width (cw : col_width) : nat := match cw with Proportional n | Percentage n => n | Auto => 0 end.
Definition total (cws : list col_width) : nat := list_sum (map written_width cws).
Definition value_of (d : distributed) : option Q := match d with DPercentage q | DAuto q => q end.
Definition Qsum (l : list Q) : Q := fold_right Qplus 0%Q l.
(** [ds] has the finite values [qs], all from 0 to 100, automatic where [cws] is *)
Definition has_values (cws : list col_width) (ds : list distributed) (qs : list Q) : Prop :=
  map value_of ds = map Some qs /\ Forall (fun q => 0 <= q <= 100)%Q qs /\
  map (fun d => match d with DAuto _ => true | _ => false end) ds = map is_auto cws.

(** ** Column specifications as text *)
Inductive wwidth := NoWidth | Number (ds : bytes) | Percent (ds : bytes) | Tilde.
Record written := Written { w_count : option bytes; w_h : option halign; w_v : option valign; w_width : wwidth; w_style : option style }.
Definition h_mark (h : halign) : ascii := match h with HLeft => "<"%char | HCenter => "^"%char | HRight => ">"%char end.
Definition v_mark (v : valign) : ascii := match v with VTop => "<"%char | VMiddle => "^"%char | VBottom => ">"%char end.
Definition letter (s : style) : ascii :=
  match s with SAsciiDoc => "a"%char | SDefault => "d"%char | SEmphasis => "e"%char | SHeader => "h"%char | SLiteral => "l"%char | SMonospace => "m"%char | SStrong => "s"%char end.
Definition width_text (w : wwidth) : bytes :=
  match w with NoWidth => [] | Number ds => ds | Percent ds => ds ++ $"%" | Tilde => $"~" end.
Definition spec_text (w : written) : bytes :=
  match w_count w with Some ds => ds ++ $"*" | None => [] end ++
  match w_h w with Some h => [h_mark h] | None => [] end ++
  match w_v w with Some v => "."%char :: [v_mark v] | None => [] end ++
  width_text (w_width w) ++
  match w_style w with Some s => [letter s] | None => [] end.
Definition digits (ds : bytes) : Prop := ds <> [] /\ Forall Text.digit ds.
(** the numbers are numbers *)
Definition shape_ok (w : written) : Prop :=
  (forall ds, w_count w = Some ds -> digits ds) /\ match w_width w with Number ds | Percent ds => digits ds | _ => True end.
(** and not too large for what the program counts with *)
Definition numbers_ok (w : written) : Prop :=
  (forall ds, w_count w = Some ds -> (Text.value ds < 2 ^ 31)%N) /\ match w_width w with Number ds | Percent ds => (Text.value ds < 256)%N | _ => True end.
Definition nat_value (ds : bytes) : nat := N.to_nat (Text.value ds).
Definition or_else {A} (o : option A) (d : A) : A := match o with Some x => x | None => d end.
(** what is meant: without marks one column, of width 1, to the left, at the top, in the default style *)
Definition meant_spec (w : written) : col_spec :=
  ColSpec (match w_width w with NoWidth => Proportional 1 | Number ds => Proportional (nat_value ds) | Percent ds => Percentage (nat_value ds) | Tilde => Auto end)
    (or_else (w_h w) HLeft) (or_else (w_v w) VTop) (or_else (w_style w) SDefault).
Definition meant (w : written) : list col_spec :=
  repeat (meant_spec w) (match w_count w with Some ds => max 1 (nat_value ds) | None => 1 end).
Definition blank (s : bytes) : Prop := Forall (fun c => In c [ascii_of_N 9; ascii_of_N 10; ascii_of_N 11; ascii_of_N 12; ascii_of_N 13; " "%char]) s.
(** a [cols] text: specifications with blanks around them, separated by commas or semicolons *)
Inductive cols_text : list written -> bytes -> Prop :=
| T_one w x y : blank x -> blank y -> cols_text [w] (x ++ spec_text w ++ y)
| T_more w x y c ws t : blank x -> blank y -> c = ","%char \/ c = ";"%char -> cols_text ws t -> cols_text (w :: ws) (x ++ spec_text w ++ y ++ c :: t).
