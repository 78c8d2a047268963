(** What the include rules promise, independently of how they are decided. *)
From Verif Require Import Base AttrsModel IncludeModel.
From Verif Require PathModel.

(** [f] lies in or under directory [d] (component lists) *)
Definition under (d f : list bytes) : Prop := exists rest, f = d ++ rest.

(** text that starts like a URL *)
Definition url_text (t : bytes) : Prop :=
  exists scheme rest, In scheme [$"http"; $"https"; $"ftp"; $"mailto"; $"irc"] /\ t = scheme ++ $"://" ++ rest
  \/ t = $"file:///" ++ rest.

(** the text's first path segment is exactly [http:] or [https:] (one slash is enough) *)
Definition scheme_segment (t : bytes) : Prop :=
  exists s, In s [$"http:"; $"https:"] /\ (t = s \/ (exists r, t = s ++ "/"%char :: r) \/ (exists r, t = s ++ "\"%char :: r)).

(** [pat] occurs in [s] *)
Definition occurs (pat s : bytes) : Prop := exists x y, s = x ++ pat ++ y.

(** the embedder (and nobody else) allowed URI reads: the job sets the attribute *)
Definition job_allows_uri (s : job_settings) : Prop :=
  exists j, aget (js_job s) "allow-uri-read" = Some j /\ ja_value j = ABool true.
