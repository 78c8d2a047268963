(** What paths denote. *)
From Verif Require Import Base PathModel.

(** a segment of a slash-separated path names itself *)
Definition denotes (seg : bytes) (c : component) : Prop :=
  (seg = $"." /\ c = CurrentDir) \/ (seg = $".." /\ c = ParentDir) \/
  (seg = $"https:" /\ c = UriScheme ($"https")) \/ (seg = $"http:" /\ c = UriScheme ($"http")) \/
  (~ In seg [$"."; $".."; $"https:"; $"http:"] /\ c = Normal seg).

(** "X:" at the start *)
Definition has_drive (s : bytes) : Prop :=
  exists a r, s = a :: ":"%char :: r /\
    ((65 <= nat_of_ascii a <= 90) \/ (97 <= nat_of_ascii a <= 122)).

(** the last component that is not "." *)
Definition last_real (l : list component) (c : component) : Prop :=
  exists pre k, l = pre ++ c :: repeat CurrentDir k /\ c <> CurrentDir.

Definition is_scheme (c : component) : Prop := exists s, c = UriScheme s.
