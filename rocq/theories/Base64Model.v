(** Model of parser/src/base64.rs. Bytes are [N] below 256 (Rust [u8]); output is bytes of ASCII text. *)
From Verif Require Import Base.
Open Scope N_scope.

(** parser/src/base64.rs:5 *)
Definition alphabet : bytes := $"ABCDEFGHIJKLMNOPQRSTUVWXYZabcdefghijklmnopqrstuvwxyz0123456789+/".

(** parser/src/base64.rs:6 — indexing panics out of range *)
Definition digit (i : N) : option ascii := nth_error alphabet (N.to_nat i).

(** [u8] operators: [<<] drops the bits shifted out *)
Definition shl8 (x k : N) : N := N.shiftl x k mod 256.
Definition shr8 (x k : N) : N := N.shiftr x k.

(** the digits and padding of one group; [None] is '=' — parser/src/base64.rs:8-25 *)
Definition group3 (c0 c1 c2 : N) : list (option N) :=
  [ Some (shr8 c0 2);
    Some (N.land (N.lor (shl8 c0 4) (shr8 c1 4)) 63);
    Some (N.land (N.lor (shl8 c1 2) (shr8 c2 6)) 63);
    Some (N.land c2 63) ].
Definition group2 (c0 c1 : N) : list (option N) :=
  [ Some (shr8 c0 2);
    Some (N.land (N.lor (shl8 c0 4) (shr8 c1 4)) 63);
    Some (N.land (shl8 c1 2) 63);
    None ].
Definition group1 (c0 : N) : list (option N) :=
  [ Some (shr8 c0 2); Some (N.land (shl8 c0 4) 63); None; None ].

Definition emit1 (d : option N) : option ascii :=
  match d with Some i => digit i | None => Some "="%char end.
Fixpoint emit (l : list (option N)) : outcome bytes :=
  match l with
  | [] => Ret []
  | d :: r => match emit1 d, emit r with
              | Some c, Ret cs => Ret (c :: cs)
              | _, _ => Panic
              end
  end.

(** parser/src/base64.rs:7-26: [bytes.chunks(3)] *)
Fixpoint groups (l : list N) : list (option N) :=
  match l with
  | [] => []
  | [c0] => group1 c0
  | [c0; c1] => group2 c0 c1
  | c0 :: c1 :: c2 :: r => group3 c0 c1 c2 ++ groups r
  end.
(** parser/src/base64.rs:3-28 *)
Definition encode (l : list N) : outcome bytes := emit (groups l).
