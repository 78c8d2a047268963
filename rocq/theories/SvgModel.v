(** Images put into the document as SVG: parser/src/tasks/parse_image_block.rs:135-168 with the regular expressions of
    core/src/regx.rs:59-62.  Files are taken to be valid UTF-8.  Simplified: the whitespace of the expressions is that of
    ASCII, and sizes hold no dollar sign, which the replacement of the regex library would read as a reference. *)
From Verif Require Import Base.
Import ListNotations.

Definition quote : ascii := """"%char.
Definition apostrophe : ascii := "'"%char.
(** u8::is_ascii_whitespace, as in trim_ascii *)
Definition is_blank (c : ascii) : bool := existsb (Ascii.eqb c) [" "%char; ascii_of_nat 9; ascii_of_nat 10; ascii_of_nat 12; ascii_of_nat 13].
(** [\s], for ASCII: also the vertical tab *)
Definition is_space (c : ascii) : bool := is_blank c || Ascii.eqb c (ascii_of_nat 11).
(** the rest of a text that begins with a word *)
Fixpoint after (w l : bytes) : option bytes :=
  match w, l with
  | [], _ => Some l
  | x :: w, y :: l => if Ascii.eqb x y then after w l else None
  | _ :: _, [] => None
  end.
Definition begins (w l : bytes) : bool := match after w l with Some _ => true | None => false end.

(** regx.rs:59: anything up to [<svg], the most that can be had (the star is greedy); and line 136, what is left begins four bytes before its end *)
Fixpoint from_last (l : bytes) : option bytes :=
  match l with
  | [] => None
  | _ :: r => match from_last r with Some x => Some x | None => if begins $"<svg" l then Some l else None end
  end.
(** line 138 *)
Fixpoint trim_start (l : bytes) : bytes := match l with [] => [] | c :: r => if is_blank c then trim_start r else l end.
Definition trim (l : bytes) : bytes := rev (trim_start (rev (trim_start l))).

(** regx.rs:61-62: a space, one of three names, an equals sign and a quoted value; how many bytes these are *)
Fixpoint to_end (q : ascii) (l : bytes) : option nat :=
  match l with [] => None | c :: r => if Ascii.eqb c q then Some 1 else match to_end q r with Some n => Some (S n) | None => None end end.
Definition quoted (l : bytes) : option nat :=
  match l with
  | c :: r => if Ascii.eqb c quote || Ascii.eqb c apostrophe then match to_end c r with Some n => Some (S n) | None => None end else None
  | [] => None
  end.
Definition named_value (w l : bytes) : option nat :=
  match after (w ++ $"=") l with Some r => match quoted r with Some n => Some (length w + 1 + n) | None => None end | None => None end.
Definition size_attr (l : bytes) : option nat :=
  match l with
  | c :: r => if is_space c
              then match named_value $"width" r with
                   | Some n => Some n
                   | None => match named_value $"height" r with Some n => Some n | None => named_value $"style" r end
                   end
              else None
  | [] => None
  end.
(** line 157, replace_all: [skip] bytes are still part of the last match *)
Fixpoint strip (skip : nat) (l : bytes) : bytes :=
  match l with
  | [] => []
  | c :: r => match skip with
              | S k => strip k r
              | 0 => match size_attr l with Some n => strip n r | None => c :: strip 0 r end
              end
  end.
(** lines 158-160, replace: the first occurrence only *)
Fixpoint replace_first (w by_ l : bytes) : bytes :=
  match after w l with
  | Some r => by_ ++ r
  | None => match l with [] => [] | c :: r => c :: replace_first w by_ r end
  end.
(** lines 145-156 *)
Definition start_tag (width height : option bytes) : bytes :=
  $"<svg " ++ match width with Some w => $"width=" ++ [quote] ++ w ++ [quote] | None => [] end
           ++ match height with Some h => $"height=" ++ [quote] ++ h ++ [quote] | None => [] end.
(** lines 134-168; None is the error for an empty file *)
Definition inline_svg (file : bytes) (width height : option bytes) : option bytes :=
  let buf := trim (match from_last file with Some l => l | None => file end) in
  let image := match width, height with
               | None, None => buf
               | _, _ => replace_first $"<svg" (start_tag width height) (strip 0 buf)
               end in
  match image with [] => None | _ => Some image end.
