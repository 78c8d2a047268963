(** Model of the text that dr-html-wasm/src/lib.rs returns to JavaScript (lines 11-43). The conversion is a
    parameter: its result is the HTML, or the texts of the diagnostics (parser/src/diagnostic.rs:181-215). *)
From Verif Require Import Base.

(** dr-html-wasm/src/lib.rs:21-42: [Result<ParseResult, Vec<Diagnostic>>], converted or written as text *)
Inductive converted := Html (html : bytes) | Diagnostics (texts : list bytes).

(** [str::replace] of one character *)
Definition replace (c : ascii) (by_ : bytes) (x : bytes) : bytes :=
  flat_map (fun d => if Ascii.eqb d c then by_ else [d]) x.
Definition QUOTE : ascii := "034"%char.
Definition NL : ascii := "010"%char.
(** [.replace('"', "\\\"").replace('\n', "\\n")]: lib.rs:26 and 38-39 *)
Definition escape (x : bytes) : bytes := replace NL $"\n" (replace QUOTE $"\""" x).
(** [join] *)
Fixpoint join (s : bytes) (l : list bytes) : bytes :=
  match l with [] => [] | [x] => x | x :: r => x ++ s ++ join s r end.

(** dr-html-wasm/src/lib.rs:22-42; the texts are joined before they are escaped *)
Definition reply (r : converted) : bytes :=
  match r with
  | Html html => $"{""success"":true,""html"":""" ++ escape html ++ $"""}"
  | Diagnostics texts => $"{""success"":false,""errors"":[""" ++ escape (join $""",""" texts) ++ $"""]}"
  end.
