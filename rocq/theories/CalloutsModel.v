(** Model of callouts: parser/src/parse_context.rs:130-172, parser/src/tasks/parse_list.rs:5-45, 83-102, ast/src/node.rs:16-36. *)
From Verif Require Import Base Text.

(** token.rs:130-145: the number in the text of a callout *)
Definition parse_callout_num (lexeme : bytes) : option nat :=
  match filter (fun c => match digit_of c with Some _ => true | None => false end) lexeme with
  | [] => None
  | ds => option_map N.to_nat (parse_bounded 256 ds)
  end.
(** node.rs:16-25, all u8 *)
Record callout := Callout { list_idx : nat; callout_idx : nat; number : nat; is_xml_wrapped : bool }.
(** u8 addition: overflow is a panic (as in builds that check it) *)
Definition add_u8 (a c : nat) : outcome nat := if a + c <=? 255 then Ret (a + c) else Panic.
Definition or_default (num : option nat) (d : nat) : nat := match num with Some n => n | None => d end.

(** parse_context.rs:130-157: the callouts so far, and the one that was pushed *)
Definition push_callout (callouts : list callout) (num : option nat) (xml : bool) : outcome (list callout * callout) :=
  match rev callouts with
  | [] => let c := Callout 0 0 (or_default num 1) xml in Ret ([c], c)
  | last :: before =>
      if number last =? 0 then
        let c := Callout (list_idx last) (callout_idx last) (or_default num 1) xml in Ret (rev before ++ [c], c)
      else
        (* unwrap_or is given last.number + 1 whether or not there is a number *)
        match add_u8 (callout_idx last) 1, add_u8 (number last) 1 with
        | Ret i, Ret next => let c := Callout (list_idx last) i (or_default num next) xml in Ret (callouts ++ [c], c)
        | _, _ => Panic
        end
  end.
(** parse_context.rs:159-166 *)
Definition advance_callout_list (callouts : list callout) : outcome (list callout) :=
  match rev callouts with
  | [] => Ret callouts
  | last :: _ => match add_u8 (list_idx last) 1 with Ret k => Ret [Callout k 0 0 false] | Panic => Panic end
  end.
(** parse_context.rs:168-176 *)
Definition get_callouts (callouts : list callout) (n : nat) : list callout := filter (fun c => number c =? n) callouts.

(** what happens in a document: a callout in a block, or a callout list with the numbers of its items *)
Inductive event := Push (num : option nat) (xml : bool) | CList (items : list (option nat)).
(** what comes of it; for an item the number it has, its callouts, and whether the number is out of sequence and whether no callout is found *)
Record item_out := ItemOut { conum : nat; callouts_of : list callout; unexpected : bool; not_found : bool }.
Inductive output := OCallout (c : callout) | OList (items : list item_out).

(** parse_list.rs:83-102 *)
Fixpoint list_items (callouts : list callout) (autogen_conum : nat) (items : list (option nat)) : outcome (list item_out) :=
  match items with
  | [] => Ret []
  | num :: rest =>
      let n := or_default num autogen_conum in
      let cs := get_callouts callouts n in
      match add_u8 n 1 with
      | Ret next =>
          match list_items callouts next rest with
          | Ret outs => Ret (ItemOut n cs (negb (n =? autogen_conum)) (match cs with [] => true | _ => false end) :: outs)
          | Panic => Panic
          end
      | Panic => Panic
      end
  end.
(** parse_list.rs:21, 34-43 *)
Fixpoint run (callouts : list callout) (events : list event) : outcome (list output) :=
  match events with
  | [] => Ret []
  | Push num xml :: rest =>
      match push_callout callouts num xml with
      | Ret (callouts', c) => match run callouts' rest with Ret outs => Ret (OCallout c :: outs) | Panic => Panic end
      | Panic => Panic
      end
  | CList items :: rest =>
      match list_items callouts 1 items with
      | Ret its =>
          match advance_callout_list callouts with
          | Ret callouts' => match run callouts' rest with Ret outs => Ret (OList its :: outs) | Panic => Panic end
          | Panic => Panic
          end
      | Panic => Panic
      end
  end.
