(** The queue as a plain list: what each operation observes and leaves. The two restricted
    operations need to know how many front slots have been consumed and not refilled, and
    truncation is only asked for while that number is zero; see the findings in DeqProps. *)
From Verif Require Import Base DeqModel.

Section Spec.
Context {T : Type}.

Inductive list_step : list T * nat -> op T -> option T -> list T * nat -> Prop :=
| ls_push l k x : list_step (l, k) (OPush x) None (l ++ [x], k)
| ls_extend l k m : list_step (l, k) (OExtend m) None (l ++ m, k)
| ls_pop_nil k : list_step ([], k) OPop None ([], k)
| ls_pop l k x : list_step (l ++ [x], k) OPop (Some x) (l, k)
| ls_front_nil k : list_step ([], k) OPopFront None ([], k)
| ls_front l k x : list_step (x :: l, k) OPopFront (Some x) (l, S k)
| ls_remove l k x : list_step (x :: l, k) ORemoveFirst None (l, S k)
| ls_truncate l n : list_step (l, 0) (OTruncate n) None (firstn n l, 0)
| ls_restore l k x : list_step (l, S k) (ORestoreFront x) None (x :: l, k)
| ls_push_front l k x : list_step (l, k) (OPushFront x) None (x :: l, pred k)
| ls_clear l k : list_step (l, k) OClear None ([], 0).

Inductive list_run : list T * nat -> list (op T) -> list (option T) -> list T * nat -> Prop :=
| lr_nil s : list_run s [] [] s
| lr_cons s o x s1 h xs s2 : list_step s o x s1 -> list_run s1 h xs s2 -> list_run s (o :: h) (x :: xs) s2.
End Spec.
