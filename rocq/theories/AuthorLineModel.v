(** Model of the author line and the author attribute: parser/src/tasks/parse_author_line.rs, parser/src/tasks/parse_doc_attrs.rs:268-286, core/src/types.rs:33-63.
    Texts are sequences of characters. *)
From Verif Require Import Base Text Unicode CollectTextModel.

(** ** Regular expressions as the regex crate runs them
    An expression takes a state to the states it may go to, the preferred first; what is found is the first. *)
Record rstate := RS { prev : option N; rest : text; caps : list (nat * text) }.
Definition regex : Type := rstate -> list rstate.
(** one character of a class *)
Definition one (f : N -> bool) : regex := fun s => match rest s with c :: r => if f c then [RS (Some c) r (caps s)] else [] | [] => [] end.
Definition seq (a b : regex) : regex := fun s => flat_map b (a s).
(** [a?] *)
Definition maybe (a : regex) : regex := fun s => a s ++ [s].
(** [a*] for an [a] that takes at least a character: no more rounds than there are characters *)
Fixpoint star_ (n : nat) (a : regex) : regex := fun s => match n with 0 => [s] | S n => flat_map (star_ n a) (a s) ++ [s] end.
Definition star (a : regex) : regex := fun s => star_ (length (rest s)) a s.
Definition plus (a : regex) : regex := seq a (star a).
(** [(a)], group number [n] *)
Definition group (n : nat) (a : regex) : regex :=
  fun s => map (fun e => RS (prev e) (rest e) ((n, firstn (length (rest s) - length (rest e)) (rest s)) :: caps e)) (a s).
(** [\b]; [word] is the class [\w], which asks the Unicode tables and so is a parameter *)
Definition boundary (word : N -> bool) : regex :=
  fun s =>
    let w o := match o with Some c => word c | None => false end in
    if Bool.eqb (w (prev s)) (w (hd_error (rest s))) then [] else [s].

Definition lt : N := 60%N.
Definition gt : N := 62%N.
Definition dot : N := 46%N.
Definition semi : N := 59%N.
Definition atsign : N := 64%N.
Definition underscore : N := 95%N.
Definition not_in (l : list N) (white : bool) (c : N) : bool := negb (existsb (N.eqb c) l) && negb (white && is_white c).
Definition is (k c : N) : bool := N.eqb c k.

(** parse_author_line.rs:17-24 *)
Definition author_re (word : N -> bool) : regex :=
  seq (group 1 (seq (plus (one (not_in [lt; dot] true))) (maybe (one (is dot)))))
 (seq (star (group 2 (seq (plus (one is_white)) (group 3 (seq (plus (one (not_in [lt; semi] false))) (boundary word))))))
 (seq (group 4 (seq (star (one is_white)) (group 5 (plus (one (not_in [lt; semi] true))))))
 (seq (maybe (seq (plus (one is_white)) (seq (one (is lt)) (seq
        (group 6 (seq (plus (one (not_in [gt; atsign] true))) (seq (one (is atsign)) (plus (one (not_in [gt] true)))))) (one (is gt))))))
      (maybe (group 7 (seq (star (one is_white)) (seq (one (is semi)) (star (one is_white))))))))).

(** Captures::get: the last text a group took *)
Fixpoint cap (n : nat) (l : list (nat * text)) : option text := match l with [] => None | (m, t) :: r => if Nat.eqb m n then Some t else cap n r end.

(** core/src/types.rs:33-39 *)
Record author := Author { first_name : text; middle_name : option text; last_name : text; email : option text }.
(** types.rs:42-52 *)
Definition fullname (a : author) : text :=
  first_name a ++ match middle_name a with Some m => space :: m | None => [] end ++ space :: last_name a.
(** types.rs:54-62 *)
Definition initials (a : author) : outcome text :=
  match first_name a, last_name a with
  | f :: _, l :: _ => Ret (f :: match middle_name a with Some (m :: _) => [m] | _ => [] end ++ [l])
  | _, _ => Panic
  end.
(** parse_author_line.rs:74-76 *)
Definition de_underscore (t : text) : text := map (fun c => if N.eqb c underscore then space else c) t.
(** parse_author_line.rs:58-72; groups 1 and 5 are always there *)
Definition author_from (l : list (nat * text)) : author :=
  let get n := match cap n l with Some t => t | None => [] end in
  Author (de_underscore (get 1)) (option_map (fun m => de_underscore (trimmed_end m)) (cap 3 l)) (de_underscore (get 5)) (cap 6 l).

(** Regex::captures_iter: the next match at or after a position, then on from its end. [skip] counts what is passed over before a match. *)
Fixpoint search (re : regex) (skip : nat) (p : option N) (s : text) : option (nat * rstate) :=
  match re (RS p s []) with
  | e :: _ => Some (skip, e)
  | [] => match s with [] => None | c :: r => search re (S skip) (Some c) r end
  end.
Fixpoint captures_iter (fuel : nat) (re : regex) (p : option N) (s : text) : list (nat * rstate) :=
  match fuel with
  | 0 => []
  | S fuel => match search re 0 p s with None => [] | Some (skip, e) => (skip, e) :: captures_iter fuel re (prev e) (rest e) end
  end.
(** parse_author_line.rs:12-56: the authors, and whether the line is one: the first match starts it and the last ends it. A gap between matches is not noticed. *)
Definition parse_author_line (word : N -> bool) (line : text) : list author * bool :=
  let src := trimmed_end line in
  let ms := captures_iter (S (length src)) (author_re word) None src in
  (map (fun m => author_from (caps (snd m))) ms,
   match ms with [] => false | (skip, _) :: _ => Nat.eqb skip 0 end &&
   match last (map Some ms) None with Some (_, e) => match rest e with [] => true | _ => false end | None => false end).

(** str::split_whitespace *)
Fixpoint split_white (t : text) : list text :=
  match t with
  | [] => []
  | c :: r =>
      if is_white c then split_white r
      else match r with
           | [] => [[c]]
           | d :: _ => if is_white d then [c] :: split_white r else match split_white r with w :: ws => (c :: w) :: ws | [] => [[c]] end
           end
  end.
Definition join_space (l : list text) : text := match l with [] => [] | w :: ws => w ++ flat_map (fun w => space :: w) ws end.
(** parse_doc_attrs.rs:268-286, for an attribute whose value is a string *)
Definition author_from_attr (v : text) : option author :=
  match v with
  | [] => None
  | _ =>
      let parts := split_white v in
      Some (Author (de_underscore (hd [] parts))
                   (if 2 <? length parts then Some (de_underscore (join_space (removelast (tl parts)))) else None)
                   (de_underscore (last parts [])) None)
  end.
