(** What substituting attribute references means, stated on texts. *)
From Verif Require Import Base Text Utf8 LexerModel RootModel LexerSpec AttrsModel AttrRefsModel.

(** A text read from left to right. [prev] is the byte before it. At each place either a reference stands there, and is replaced by
    [rep] of its name, or one byte is kept. [refs] are the names of the references met. What was put in is not looked at again. *)
Definition reference (n : bytes) : bytes := $"{" ++ n ++ $"}".
Definition ref_name (n : bytes) : Prop := n <> [] /\ all_of name_byte n.
Inductive expanded (rep : bytes -> bytes) : option ascii -> bytes -> bytes -> list bytes -> Prop :=
| E_end prev : expanded rep prev [] [] []
| E_ref prev n s out refs : prev <> Some "\"%char -> ref_name n -> expanded rep (Some "}"%char) s out refs ->
    expanded rep prev (reference n ++ s) (rep n ++ out) (n :: refs)
| E_byte prev c s out refs : (prev <> Some "\"%char -> forall n r, ref_name n -> c :: s <> reference n ++ r) ->
    expanded rep (Some c) s out refs -> expanded rep prev (c :: s) (c :: out) refs.

(** a name in lower case *)
Definition lowered (n m : bytes) : Prop :=
  Forall2 (fun c d => (between 65 90 c = true /\ val d = val c + 32) \/ (between 65 90 c = false /\ d = c))%N n m.
Definition defined (get : lookup) (n v : bytes) : Prop := exists m s, lowered n m /\ get m = Some (AStr s) /\ v = b s.
Definition undefined (get : lookup) (n : bytes) : Prop := forall v, ~ defined get n v.
(** the attribute attribute-missing *)
Definition missing_is (get : lookup) (s : bytes) : Prop := exists v, get ($"attribute-missing") = Some (AStr v) /\ b v = s.
(** what a reference is to be replaced with *)
Definition replacement (get : lookup) (rep : bytes -> bytes) : Prop := forall n,
  (forall v, defined get n v -> rep n = v) /\
  (undefined get n -> (missing_is get ($"drop") \/ missing_is get ($"drop-line") -> rep n = []) /\
                      (~ missing_is get ($"drop") -> ~ missing_is get ($"drop-line") -> rep n = reference n)).
(** Values that stay put: valid text of one line without an opening brace. *)
Definition inert (v : bytes) : Prop := utf8 v /\ ~ In newline v /\ ~ In return_ v /\ ~ In "{"%char v.
Definition inert_values (get : lookup) : Prop := forall n v, get n = Some (AStr v) -> inert (b v).

(** The lines of a document: what each becomes, which vanish, and which references are warned about. *)
Definition known (get : lookup) (n : bytes) : Prop := exists v, defined get n v.
Inductive undefined_among (get : lookup) : list bytes -> list bytes -> Prop :=
| U_nil : undefined_among get [] []
| U_known n refs ms : known get n -> undefined_among get refs ms -> undefined_among get (n :: refs) ms
| U_missing n refs ms : undefined get n -> undefined_among get refs ms -> undefined_among get (n :: refs) (n :: ms).
Inductive lines_read (get : lookup) (rep : bytes -> bytes) : list bytes -> list bytes -> list bytes -> Prop :=
| R_end : lines_read get rep [] [] []
| R_kept l ls out outs refs ms warned warned' :
    expanded rep None l out refs -> undefined_among get refs ms -> (missing_is get ($"drop-line") -> ms = []) ->
    (missing_is get ($"warn") -> warned = ms) -> (~ missing_is get ($"warn") -> warned = []) ->
    lines_read get rep ls outs warned' -> lines_read get rep (l :: ls) (out :: outs) (warned ++ warned')
| R_dropped l ls out outs refs ms warned :
    expanded rep None l out refs -> undefined_among get refs ms -> missing_is get ($"drop-line") -> ms <> [] ->
    lines_read get rep ls outs warned -> lines_read get rep (l :: ls) outs warned.
Definition text_line (l : bytes) : Prop := utf8 l /\ ~ In newline l /\ ~ In return_ l.
Definition document (ls : list bytes) : bytes := concat (map (fun l => l ++ [newline]) ls).

(** References in values: any text without white space and closing braces is a name. *)
Definition val_name (n : bytes) : Prop := n <> [] /\ ~ In "}"%char n /\ forall a w z, In w white -> n <> a ++ w ++ z.
Inductive substituted (get : lookup) : bytes -> bytes -> Prop :=
| V_end : substituted get [] []
| V_ref n v s out : val_name n -> get n = Some (AStr v) -> substituted get s out -> substituted get (reference n ++ s) (b v ++ out)
| V_ref_undefined n s out : val_name n -> (forall v, get n <> Some (AStr v)) -> substituted get s out -> substituted get (reference n ++ s) out
| V_byte c s out : (forall n r, val_name n -> c :: s <> reference n ++ r) -> substituted get s out -> substituted get (c :: s) (c :: out).
Definition word_plugins (plugins : list bytes) : Prop := forall p, In p plugins -> ~ In newline p /\ ~ In "{"%char p.
