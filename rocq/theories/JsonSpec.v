(** What a JSON reader (RFC 8259; the web playground calls JSON.parse) makes of a reply, written without the
    model. It reads the two shapes of objects a reply can have; strings are read in full generality. *)
From Verif Require Import Base.

(** A character of a string value: a byte of its UTF-8 text, or a code unit of an escape beyond ASCII. *)
Inductive jchar := Byte (c : ascii) | Unit (n : nat).

Definition hex (c : ascii) : option nat :=
  let n := nat_of_ascii c in
  if (48 <=? n) && (n <=? 57) then Some (n - 48)
  else if (97 <=? n) && (n <=? 102) then Some (n - 87)
  else if (65 <=? n) && (n <=? 70) then Some (n - 55) else None.
Definition hex4 (c0 c1 c2 c3 : ascii) : option jchar :=
  match hex c0, hex c1, hex c2, hex c3 with
  | Some n0, Some n1, Some n2, Some n3 =>
      let n := 4096 * n0 + 256 * n1 + 16 * n2 + n3 in
      Some (if n <? 128 then Byte (ascii_of_nat n) else Unit n)
  | _, _, _, _ => None
  end.
(** the escapes of one letter *)
Definition short_escape (c : ascii) : option ascii :=
  match c with
  | """" => Some """" | "\" => Some "\" | "/" => Some "/" | "b" => Some "008" | "f" => Some "012"
  | "n" => Some "010" | "r" => Some "013" | "t" => Some "009" | _ => None
  end%char.
Definition is_control (c : ascii) : bool := nat_of_ascii c <? 32.

Definition front {A B} (x : A) (r : option (list A * B)) : option (list A * B) :=
  match r with Some (l, k) => Some (x :: l, k) | None => None end.
(** The characters of a string up to its closing quote, and what is behind the quote. *)
Fixpoint string_body (x : bytes) : option (list jchar * bytes) :=
  match x with
  | [] => None
  | c :: r =>
      if Ascii.eqb c """" then Some ([], r)
      else if Ascii.eqb c "\" then
        match r with
        | [] => None
        | e :: r1 =>
            if Ascii.eqb e "u" then
              match r1 with
              | c0 :: c1 :: c2 :: c3 :: r2 =>
                  match hex4 c0 c1 c2 c3 with Some v => front v (string_body r2) | None => None end
              | _ => None
              end
            else match short_escape e with Some v => front (Byte v) (string_body r1) | None => None end
        end
      else if is_control c then None
      else front (Byte c) (string_body r)
  end.
(** The strings of an array behind its opening bracket. *)
Fixpoint strings (fuel : nat) (x : bytes) : option (list (list jchar) * bytes) :=
  match fuel, x with
  | S f, c :: r =>
      if Ascii.eqb c """" then
        match string_body r with
        | Some (s, d :: r1) =>
            if Ascii.eqb d "," then front s (strings f r1)
            else if Ascii.eqb d "]" then Some ([s], r1) else None
        | _ => None
        end
      else None
  | _, _ => None
  end.
Fixpoint behind (p x : bytes) : option bytes :=
  match p, x with
  | [], _ => Some x
  | c :: p', d :: x' => if Ascii.eqb c d then behind p' x' else None
  | _, _ => None
  end.

(** The value of ["html"] in a reply that says it is a success. *)
Definition read_html (x : bytes) : option (list jchar) :=
  match behind $"{""success"":true,""html"":""" x with
  | Some r => match string_body r with
              | Some (s, k) => if bytes_eqb k $"}" then Some s else None
              | None => None
              end
  | None => None
  end.
(** The values of ["errors"] in a reply that says it is none. *)
Definition read_errors (x : bytes) : option (list (list jchar)) :=
  match behind $"{""success"":false,""errors"":[" x with
  | Some r => match strings (length r) r with
              | Some (l, k) => if bytes_eqb k $"}" then Some l else None
              | None => None
              end
  | None => None
  end.

Definition text (x : bytes) : list jchar := map Byte x.
(** No backslash, and no control character but line feeds. *)
Definition plain (x : bytes) : Prop :=
  Forall (fun c => c <> "\"%char /\ (is_control c = true -> c = "010"%char)) x.
