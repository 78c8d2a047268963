(** Model of include::[lines=]: parser/src/tasks/directives/includes/normalize_includes.rs:53-70 and 156-176. *)
From Verif Require Import Base Text.

Definition LF : ascii := ascii_of_nat 10.
Definition separator (c : ascii) : bool := existsb (Ascii.eqb c) [","%char; ";"%char].
Definition max_usize : N := (usize_bound - 1)%N.
(** [n + 1] on usize: with overflow checks it panics, without it wraps *)
Definition succ_usize (checked : bool) (n : N) : outcome N :=
  if (n =? max_usize)%N then (if checked then Panic else Ret 0%N) else Ret (n + 1)%N.
(** normalize_includes.rs:158-174, one part; a range is [low, high), usize::MAX standing for an open end *)
Definition parse_range (checked : bool) (part : bytes) : outcome (option (N * N)) :=
  let part := trim part in
  match split_once ($"..") part with
  | Some (low, high) =>
      match parse_usize low with
      | None => Ret None
      | Some lo =>
          if bytes_eqb high ($"-1") || bytes_eqb high [] then Ret (Some (lo, max_usize))
          else match parse_usize high with
               | Some hi => if (lo <=? hi)%N then match succ_usize checked hi with Ret h => Ret (Some (lo, h)) | Panic => Panic end
                            else Ret None
               | None => Ret None
               end
      end
  | None =>
      match parse_usize part with
      | Some n => match succ_usize checked n with Ret h => Ret (Some (n, h)) | Panic => Panic end
      | None => Ret None
      end
  end.
(** normalize_includes.rs:156-176 *)
Fixpoint parse_ranges (checked : bool) (parts : list bytes) : outcome (list (N * N)) :=
  match parts with
  | [] => Ret []
  | p :: ps =>
      match parse_range checked p, parse_ranges checked ps with
      | Ret (Some r), Ret rs => Ret (r :: rs)
      | Ret None, Ret rs => Ret rs
      | _, _ => Panic
      end
  end.
Definition marker : bytes := $"asciidorkinclude::[false]".
Definition in_range (n : N) (r : N * N) : bool := ((fst r <=? n) && (n <? snd r))%N.
(** normalize_includes.rs:59-68; [i] is the line's index *)
Fixpoint pick (rs : list (N * N)) (i : nat) (lines : list bytes) : bytes :=
  match lines with
  | [] => []
  | l :: t => (if existsb (in_range (N.of_nat i + 1)) rs then l ++ [LF] else marker ++ [LF]) ++ pick rs (S i) t
  end.
(** normalize_includes.rs:53-70 *)
Definition select_line_ranges (checked : bool) (spec src : bytes) : outcome bytes :=
  match parse_ranges checked (split_by separator spec) with
  | Panic => Panic
  | Ret [] => Ret src
  | Ret rs => Ret (pick rs 0 (split_byte LF src))
  end.
