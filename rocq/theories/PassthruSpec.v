(** A passthrough written in a line of words. *)
From Verif Require Import InlineModel InlineSpec VerbatimSpec.

(** words, with single spaces *)
Definition plain_tok (t : tok) : Prop := tk t = Word \/ tk t = Whitespace /\ length (tx t) = 1.
Definition text_node (x : bytes) : list inode := match x with [] => [] | _ => [NText x] end.
Definition without (k : kind) (ts : list tok) : Prop := ~ has k ts.
Definition plus_tok (t : tok) : Prop := tk t = Plus /\ length (tx t) = 1.
(** a text that is shown as it is when it is passed through *)
Definition passed_through (escaped : bool) (ts : list tok) : Prop := left_alone escaped ts /\ ts <> [] /\ ~ comment_line ts.
(** where single plus signs are a passthrough *)
Definition single_ok (pre body post : list tok) : Prop :=
  at_k Whitespace (hd_error body) = false /\ at_k Whitespace (last_token body) = false /\ at_k Word (hd_error post) = false /\ (pre = [] \/ at_k Whitespace (last_token pre) = true).
