(** RFC 4648 section 4, arithmetically: 24 input bits are read as a number and written in base 64. *)
From Verif Require Import Base.
Open Scope N_scope.

(** Table 1 of the RFC: value -> character. *)
Definition rfc_char (v : N) : ascii :=
  if v <? 26 then ascii_of_N (65 + v)             (* A-Z *)
  else if v <? 52 then ascii_of_N (97 + (v - 26)) (* a-z *)
  else if v <? 62 then ascii_of_N (48 + (v - 52)) (* 0-9 *)
  else if v =? 62 then "+"%char else "/"%char.

Definition pad : ascii := "="%char.

Fixpoint rfc_encode (l : list N) : bytes :=
  match l with
  | [] => []
  | [x] => let n := x * 65536 in
      [rfc_char (n / 262144); rfc_char (n / 4096 mod 64); pad; pad]
  | [x; y] => let n := x * 65536 + y * 256 in
      [rfc_char (n / 262144); rfc_char (n / 4096 mod 64); rfc_char (n / 64 mod 64); pad]
  | x :: y :: z :: r => let n := x * 65536 + y * 256 + z in
      rfc_char (n / 262144) :: rfc_char (n / 4096 mod 64) :: rfc_char (n / 64 mod 64)
        :: rfc_char (n mod 64) :: rfc_encode r
  end.

(** A decoder: value of a character, and groups of four characters. *)
Definition rfc_value (c : ascii) : option N :=
  let n := N_of_ascii c in
  if (65 <=? n) && (n <=? 90) then Some (n - 65)
  else if (97 <=? n) && (n <=? 122) then Some (n - 97 + 26)
  else if (48 <=? n) && (n <=? 57) then Some (n - 48 + 52)
  else if n =? 43 then Some 62 else if n =? 47 then Some 63 else None.

Fixpoint rfc_decode (t : bytes) : option (list N) :=
  match t with
  | [] => Some []
  | a :: b :: c :: d :: r =>
      match rfc_value a, rfc_value b with
      | Some va, Some vb =>
          match rfc_value c, rfc_value d with
          | Some vc, Some vd =>
              match rfc_decode r with
              | Some rest => Some (va * 4 + vb / 16 :: vb mod 16 * 16 + vc / 4 :: vc mod 4 * 64 + vd :: rest)
              | None => None
              end
          | Some vc, None =>
              if Ascii.eqb d pad then match r with [] => Some [va * 4 + vb / 16; vb mod 16 * 16 + vc / 4] | _ => None end
              else None
          | None, _ =>
              if Ascii.eqb c pad && Ascii.eqb d pad then match r with [] => Some [va * 4 + vb / 16] | _ => None end
              else None
          end
      | _, _ => None
      end
  | _ => None
  end.
