(** What section ids have to be, stated on titles and sets of ids. *)
From Verif Require Import Base SectionIdModel.
From Coq Require Import NArith.

(** decimal digits of a number, most significant first *)
Definition digits_of (n : nat) (ds : text) : Prop :=
  ds <> [] /\ Forall (fun d => (48 <= d <= 57)%N) ds /\ fold_left (fun a d => (10 * a + (d - 48))%N) ds 0%N = N.of_nat n.
Definition numbered (base : text) (sep : option N) (n : nat) : text := base ++ sep_text sep ++ numeral n.
(** [id] is [base] itself if that is unused, otherwise [base], the separator and the least number from two on that makes it unused.
    Without [plain] there is always a number. *)
Definition first_unused (used : list text) (base : text) (sep : option N) (plain : bool) (id : text) : Prop :=
  (plain = true /\ ~ In base used /\ id = base) \/
  ((plain = true -> In base used) /\ exists n, 2 <= n /\ id = numbered base sep n /\ ~ In id used /\ forall m, 2 <= m < n -> In (numbered base sep m) used).

(** Characters of a title. *)
Inductive kept_as (U : unicode) : N -> text -> Prop :=
| K_ascii c : ascii_alnum c = true -> kept_as U c [ascii_lower c]
| K_other c : (128 <= c)%N -> alphanumeric U c = true -> kept_as U c (to_lower U c).
Definition gap (c : N) : Prop := In c [32; 45; 46; 44; 9]%N.
(** what begins a tag, an entity, a cross reference or an anchor *)
Definition special (c : N) : Prop := In c [60; 62; 91; 38]%N.
Definition dropped (U : unicode) (c : N) : Prop := ~ gap c /\ ~ special c /\ ascii_alnum c = false /\ ((128 <= c)%N -> alphanumeric U c = false).
(** a word of the title and the text it gives *)
Inductive word_of (U : unicode) : text -> text -> Prop :=
| W_end : word_of U [] []
| W_kept c k w t : kept_as U c k -> word_of U w t -> word_of U (c :: w) (k ++ t)
| W_dropped c w t : dropped U c -> word_of U w t -> word_of U (c :: w) t.
Definition gap_text (U : unicode) (g : text) : Prop := Forall (fun c => gap c \/ dropped U c) g /\ Exists gap g.
(** words with gaps between them, and perhaps one behind the last *)
Inductive words_of (U : unicode) : text -> list text -> Prop :=
| Ws_last w t : word_of U w t -> t <> [] -> words_of U w [t]
| Ws_trailing w t g : word_of U w t -> t <> [] -> gap_text U g -> words_of U (w ++ g) [t]
| Ws_more w t g r ts : word_of U w t -> t <> [] -> gap_text U g -> words_of U r ts -> words_of U (w ++ g ++ r) (t :: ts).
Fixpoint joined (sep : option N) (ts : list text) : text :=
  match ts with [] => [] | [t] => t | t :: r => t ++ sep_text sep ++ joined sep r end.

(** [title] is [plain], with tags of HTML in it: `<`, characters other than markup and white space, `>`. *)
Inductive with_tags : text -> text -> Prop :=
| WT_end : with_tags [] []
| WT_char c title plain : ~ special c -> with_tags title plain -> with_tags (c :: title) (c :: plain)
| WT_tag tag title plain : Forall (fun c => ~ special c /\ ~ gap c) tag -> with_tags title plain -> with_tags (60%N :: tag ++ 62%N :: title) plain.
