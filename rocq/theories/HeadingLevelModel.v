(** Model of heading levels and offsets: parser/src/line.rs:230-247, parser/src/tasks/heading_level.rs, backend/src/html/util.rs:3-14. *)
From Verif Require Import Base Text LexerModel.
Open Scope Z_scope.

(** i8 arithmetic: a result out of range is a panic (as in builds that check it) *)
Definition i8 (z : Z) : outcome Z := if (-128 <=? z) && (z <=? 127) then Ret z else Panic.
(** [n as u8], [n as i8] *)
Definition as_u8 (z : Z) : Z := z mod 256.
Definition as_i8 (z : Z) : Z := let u := as_u8 z in if u <? 128 then u else u - 256.
(** str::parse::<i8>: an optional sign and digits *)
Definition parse_i8 (s : bytes) : option Z :=
  match s with
  | "-"%char :: "+"%char :: _ => None
  | "-"%char :: r => match parse_bounded 129 r with Some n => Some (- Z.of_N n) | None => None end
  | _ => match parse_bounded 128 s with Some n => Some (Z.of_N n) | None => None end
  end.

(** core/src/attrs.rs: AttrValue *)
Inductive value := VStr (s : bytes) | VBool (b : bool).
(** heading_level.rs:36-50 *)
Definition adjust_leveloffset (offset : Z) (v : value) : outcome Z :=
  match v with
  | VStr ("+"%char :: add) => i8 (offset + match parse_i8 add with Some n => n | None => 0 end)
  | VStr ("-"%char :: sub) => i8 (offset - match parse_i8 sub with Some n => n | None => 0 end)
  | VStr s => Ret (match parse_i8 s with Some n => n | None => offset end)
  | VBool false => Ret 0
  | VBool true => Ret offset
  end.
(** the assignments to leveloffset in a document, in order (parse_doc_attrs.rs:169-171, parser.rs:48-50) *)
Fixpoint offset_after (offset : Z) (vs : list value) : outcome Z :=
  match vs with [] => Ret offset | v :: r => match adjust_leveloffset offset v with Ret o => offset_after o r | Panic => Panic end end.
(** heading_level.rs:53-59 *)
Definition adjusted_leveloffset (offset level : Z) : outcome Z :=
  if offset =? 0 then Ret level
  else match i8 (as_i8 level + offset) with Ret n => Ret (if n <? 0 then 0 else n) | Panic => Panic end.
(** heading_level.rs:4-12: [ctx] is ctx.leveloffset, [inc] the leveloffset of the source the line is in *)
Definition line_heading_level (ctx inc unadjusted : Z) : outcome Z :=
  match adjusted_leveloffset ctx unadjusted with Ret l => adjusted_leveloffset inc l | Panic => Panic end.
(** root_lexer.rs:82-104, 169-171 and process_includes.rs:92-107: each source has the offset written at the include directive that pushed it *)
Definition level_in (sources : list Z) (idx : nat) (ctx unadjusted : Z) : outcome Z := line_heading_level ctx (nth idx sources 0) unadjusted.

(** line.rs:230-247, on the kinds of the tokens and their lexemes *)
Definition is_equals (t : kind * bytes) : bool := match fst t with EqualSigns => true | _ => false end.
Definition is_white (t : kind * bytes) : bool := match fst t with Whitespace => true | _ => false end.
Definition is_hash (t : kind * bytes) : bool := match fst t with Hash => true | _ => false end.
Fixpoint take_hashes (ts : list (kind * bytes)) : nat := match ts with t :: r => if is_hash t then S (take_hashes r) else O | [] => O end.
Definition unadjusted_heading_level (ts : list (kind * bytes)) : option Z :=
  match ts with
  | t1 :: t2 :: r =>
      if is_equals t1 && is_white t2 && (2 <? length ts)%nat then Some (as_u8 (Z.of_nat (length (snd t1)) - 1))
      else if is_hash t1 && (2 <? length ts)%nat then
        let n := take_hashes ts in
        if (n + 1 <? length ts)%nat && match nth_error ts n with Some t => is_white t | None => false end then Some (as_u8 (Z.of_nat n - 1)) else None
      else None
  | _ => None
  end.

(** backend/src/html/util.rs:3-14. [Panic]: unreachable!() *)
Definition section_class (level : Z) : outcome Z := if (0 <=? level) && (level <=? 6) then Ret level else Panic.
(** asciidoctor_html.rs:276-281: a heading of [unadjusted] level as a section, and its class *)
Definition rendered (ctx inc unadjusted : Z) : outcome Z := match line_heading_level ctx inc unadjusted with Ret l => section_class l | Panic => Panic end.
