(** Model of the columns of tables: ast/src/table.rs:5-112 and 250-270, ast/src/col_widths.rs:27-68,
    parser/src/tasks/table/parse_table_spec.rs:16-91. Text is ASCII: the regular expression's [\d] and [\s] also match other digits and
    white space, which are not modelled. *)
From Verif Require Import Base Text.
From Coq Require Import QArith.
Open Scope nat_scope.

(** table.rs:5-19, 58-83 *)
Inductive halign := HLeft | HCenter | HRight.
Inductive valign := VTop | VMiddle | VBottom.
Inductive style := SAsciiDoc | SDefault | SEmphasis | SHeader | SLiteral | SMonospace | SStrong.
(** the numbers are u8 *)
Inductive col_width := Proportional (n : nat) | Percentage (n : nat) | Auto.
Record col_spec := ColSpec { width : col_width; h_align : halign; v_align : valign; col_style : style }.
(** table.rs:103-112 *)
Definition default_spec : col_spec := ColSpec (Proportional 1) HLeft VTop SDefault.

(** ** col_widths.rs:27-68. Floating point numbers are exact quotients here: [None] is the result of a division by zero. *)
Inductive distributed := DPercentage (q : option Q) | DAuto (q : option Q).
Definition Qof (n : nat) : Q := inject_Z (Z.of_nat n).
Definition fdiv (x : Q) (n : nat) : option Q := match n with 0 => None | _ => Some (x / Qof n)%Q end.
(** col_widths.rs:39-48: the sum of the widths is a u8, its overflow a panic *)
Fixpoint sum_widths (acc : option nat) (cws : list col_width) : outcome (option nat) :=
  match cws with
  | [] => Ret acc
  | (Proportional n | Percentage n) :: rest =>
      let sum := match acc with Some s => s + n | None => n end in
      if sum <=? 255 then sum_widths (Some sum) rest else Panic
  | Auto :: rest => sum_widths acc rest
  end.
Definition is_auto (cw : col_width) : bool := match cw with Auto => true | _ => false end.
Definition distribute (cws : list col_width) : outcome (list distributed) :=
  match sum_widths None cws with
  | Panic => Panic
  | Ret width_divisor =>
      let num_autowidth := length (filter is_auto cws) in
      let '(divisor, autowidth) :=
        match width_divisor with
        | Some width =>
            if ((0 <? num_autowidth) && (100 <? width)) || (num_autowidth =? 0) then (width, Some 0%Q)
            else (100, fdiv (Qof (100 - width)) num_autowidth)
        | None => (0, fdiv (Qof 100) num_autowidth)
        end in
      Ret (map (fun cw => match cw with
        | Proportional n | Percentage n => DPercentage (fdiv (Qof n * 100)%Q divisor)
        | Auto => DAuto autowidth
        end) cws)
  end.

(** ** parse_table_spec.rs:16-91 *)
Definition white (c : ascii) : bool := let n := N_of_ascii c in ((9 <=? n) && (n <=? 13) || (n =? 32))%N.
Definition is_digit (c : ascii) : bool := match digit_of c with Some _ => true | None => false end.
Fixpoint span (f : ascii -> bool) (s : bytes) : bytes * bytes :=
  match s with c :: r => if f c then let '(x, y) := span f r in (c :: x, y) else ([], s) | [] => ([], []) end.
Definition halign_of (c : ascii) : option halign :=
  match c with "<"%char => Some HLeft | "^"%char => Some HCenter | ">"%char => Some HRight | _ => None end.
Definition valign_of (c : ascii) : option valign :=
  match c with "<"%char => Some VTop | "^"%char => Some VMiddle | ">"%char => Some VBottom | _ => None end.
Definition style_of (c : ascii) : option style :=
  match c with
  | "a"%char => Some SAsciiDoc | "d"%char => Some SDefault | "e"%char => Some SEmphasis | "h"%char => Some SHeader
  | "l"%char => Some SLiteral | "m"%char => Some SMonospace | "s"%char => Some SStrong | _ => None
  end.
(** the captures of the regular expression (parse_table_spec.rs:16-20), in the order multiplier, horizontal, vertical, width, style.
    No part can begin with what another part leaves, so there is one way to match. *)
Record captures := Captures { multiplier : option bytes; cap_h : option halign; cap_v : option valign; cap_width : option bytes; cap_style : option style }.
Definition take_multiplier (s : bytes) : option bytes * bytes :=
  match span is_digit s with (c :: ds, "*"%char :: r) => (Some (c :: ds), r) | _ => (None, s) end.
Definition take_h (s : bytes) : option halign * bytes :=
  match s with c :: r => match halign_of c with Some h => (Some h, r) | None => (None, s) end | [] => (None, s) end.
Definition take_v (s : bytes) : option valign * bytes :=
  match s with "."%char :: c :: r => match valign_of c with Some v => (Some v, r) | None => (None, s) end | _ => (None, s) end.
Definition take_width (s : bytes) : option bytes * bytes :=
  match span is_digit s with
  | ([], "~"%char :: r) => (Some ["~"%char], r)
  | ([], _) => (None, s)
  | (ds, "%"%char :: r) => (Some (ds ++ ["%"%char]), r)
  | (ds, r) => (Some ds, r)
  end.
Definition take_style (s : bytes) : option style * bytes :=
  match s with c :: r => match style_of c with Some h => (Some h, r) | None => (None, s) end | [] => (None, s) end.
Definition colspec_re (s : bytes) : option captures :=
  let s := snd (span white s) in
  let '(m, s) := take_multiplier s in
  let '(h, s) := take_h s in
  let '(v, s) := take_v s in
  let '(w, s) := take_width s in
  let '(st, s) := take_style s in
  if forallb white s then Some (Captures m h v w st) else None.
Definition parse_u8_or_1 (ds : bytes) : nat := match parse_bounded 256 ds with Some n => N.to_nat n | None => 1 end.
(** the repeat count is an i32 *)
Definition parse_i32_or_1 (ds : bytes) : nat := match parse_bounded 2147483648 ds with Some n => N.to_nat n | None => 1 end.
Definition width_of (w : bytes) : col_width :=
  if bytes_eqb w ["~"%char] then Auto
  else match rev w with "%"%char :: r => Percentage (parse_u8_or_1 (rev r)) | _ => Proportional (parse_u8_or_1 w) end.
(** parse_table_spec.rs:22-65 *)
Definition parse_col_spec (s : bytes) : list col_spec :=
  match s with
  | [] => [default_spec]
  | _ =>
      match colspec_re s with
      | None => [default_spec]
      | Some c =>
          let or {A} (o : option A) (d : A) := match o with Some x => x | None => d end in
          let spec := ColSpec (match cap_width c with Some w => width_of w | None => Proportional 1 end) (or (cap_h c) HLeft) (or (cap_v c) VTop) (or (cap_style c) SDefault) in
          match multiplier c with
          | Some ds => let n := parse_i32_or_1 ds in if 1 <? n then repeat spec (n - 1) ++ [spec] else [spec]
          | None => [spec]
          end
      end
  end.
(** parse_table_spec.rs:68-91 *)
Definition parse_col_specs (s : bytes) : list col_spec :=
  if forallb white s then []
  else if forallb is_digit s then repeat default_spec (parse_i32_or_1 s)
  else flat_map parse_col_spec (split_by (fun c => Ascii.eqb c ";"%char || Ascii.eqb c ","%char) s).
