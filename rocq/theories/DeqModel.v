(** Model of parser/src/deq.rs: a vector plus a count of consumed front slots. *)
From Verif Require Import Base.

Section Deq.
Context {T : Type} (dflt : T). (* [T::default_in], parser/src/deq.rs:142-144 *)

(** parser/src/deq.rs:9-14 *)
Record deq : Type := mkDeq { buf : list T; pos : nat }.

(** parser/src/deq.rs:17-35 *)
Definition new : deq := mkDeq [] 0.
Definition from_vec (l : list T) : deq := mkDeq l 0.
(** parser/src/deq.rs:37-40 *)
Definition clear (d : deq) : deq := mkDeq [] 0.
(** parser/src/deq.rs:42-44 *)
Definition extend (d : deq) (l : list T) : deq := mkDeq (buf d ++ l) (pos d).
(** parser/src/deq.rs:46-52 *)
Definition get (d : deq) (i : nat) : option T := nth_error (buf d) (i + pos d).
(** parser/src/deq.rs:54-56 *)
Definition push (d : deq) (x : T) : deq := mkDeq (buf d ++ [x]) (pos d).
(** parser/src/deq.rs:69-75: [usize] subtraction, which panics below zero *)
Definition len (d : deq) : outcome nat :=
  if pos d <=? length (buf d) then Ret (length (buf d) - pos d) else Panic.
Definition is_empty (d : deq) : outcome bool :=
  match len d with Ret n => Ret (n =? 0) | Panic => Panic end.
(** parser/src/deq.rs:58-63; [Vec::pop] *)
Definition vec_pop (l : list T) : option T * list T :=
  match rev l with [] => (None, []) | x :: r => (Some x, rev r) end.
Definition pop (d : deq) : outcome (option T * deq) :=
  match is_empty d with
  | Panic => Panic
  | Ret true => Ret (None, d)
  | Ret false => let (x, l) := vec_pop (buf d) in Ret (x, mkDeq l (pos d))
  end.
(** parser/src/deq.rs:65-67 *)
Definition truncate (d : deq) (n : nat) : deq := mkDeq (firstn n (buf d)) (pos d).
(** parser/src/deq.rs:77-79 *)
Definition first (d : deq) : option T := nth_error (buf d) (pos d).
(** parser/src/deq.rs:81-93 *)
Definition last (d : deq) : outcome (option T) :=
  match is_empty d with
  | Panic => Panic
  | Ret true => Ret None
  | Ret false => Ret (fst (vec_pop (buf d)))
  end.
(** parser/src/deq.rs:95-105, 137-139: [skip] does not panic *)
Definition iter (d : deq) : list T := skipn (pos d) (buf d).
(** parser/src/deq.rs:111-113 *)
Definition remove_first (d : deq) : deq := mkDeq (buf d) (S (pos d)).
(** replaces slot [i]; [buf[i] = item] panics out of range *)
Fixpoint set_nth (l : list T) (i : nat) (x : T) : outcome (list T) :=
  match l, i with
  | [], _ => Panic
  | _ :: r, O => Ret (x :: r)
  | y :: r, S i' => match set_nth r i' x with Ret r' => Ret (y :: r') | Panic => Panic end
  end.
(** parser/src/deq.rs:118-122 *)
Definition restore_front (d : deq) (x : T) : outcome deq :=
  match pos d with
  | O => Panic
  | S p => match set_nth (buf d) p x with Ret l => Ret (mkDeq l p) | Panic => Panic end
  end.
(** parser/src/deq.rs:124-131 *)
Definition slowly_push_front (d : deq) (x : T) : outcome deq :=
  match pos d with
  | O => Ret (mkDeq (x :: buf d) 0)
  | S p => match set_nth (buf d) p x with Ret l => Ret (mkDeq l p) | Panic => Panic end
  end.
(** parser/src/deq.rs:133-135: slicing past the end panics *)
Definition as_slice (d : deq) : outcome (list T) :=
  if pos d <=? length (buf d) then Ret (skipn (pos d) (buf d)) else Panic.
(** parser/src/deq.rs:147-156: swaps the default value into the slot *)
Definition pop_front (d : deq) : outcome (option T * deq) :=
  match is_empty d with
  | Panic => Panic
  | Ret true => Ret (None, d)
  | Ret false =>
      match nth_error (buf d) (pos d), set_nth (buf d) (pos d) dflt with
      | Some x, Ret l => Ret (Some x, mkDeq l (S (pos d)))
      | _, _ => Panic
      end
  end.

(** Histories: every mutating operation, with what the caller observes. *)
Inductive op : Type :=
| OPush (x : T) | OExtend (l : list T) | OPop | OPopFront | ORemoveFirst | OTruncate (n : nat)
| ORestoreFront (x : T) | OPushFront (x : T) | OClear.

Definition step (d : deq) (o : op) : outcome (option T * deq) :=
  match o with
  | OPush x => Ret (None, push d x)
  | OExtend l => Ret (None, extend d l)
  | OPop => pop d
  | OPopFront => pop_front d
  | ORemoveFirst => Ret (None, remove_first d)
  | OTruncate n => Ret (None, truncate d n)
  | ORestoreFront x => match restore_front d x with Ret d' => Ret (None, d') | Panic => Panic end
  | OPushFront x => match slowly_push_front d x with Ret d' => Ret (None, d') | Panic => Panic end
  | OClear => Ret (None, clear d)
  end.
Fixpoint run (d : deq) (h : list op) : outcome (list (option T) * deq) :=
  match h with
  | [] => Ret ([], d)
  | o :: r =>
      match step d o with
      | Panic => Panic
      | Ret (x, d') =>
          match run d' r with
          | Panic => Panic
          | Ret (xs, d'') => Ret (x :: xs, d'')
          end
      end
  end.
End Deq.
Arguments deq : clear implicits.
Arguments op : clear implicits.
