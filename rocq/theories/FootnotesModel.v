(** Model of footnotes: backend/src/html/backend.rs:438-450, backend/src/html/htmlbuf.rs:105-148, dr-html-backend/src/asciidoctor_html.rs:112-117, 304-320,
    1462-1497, 1558-1563, 1606-1620, backend-html5s/src/html5s.rs:104-108, 1414-1452, 1456-1470, 1523-1541, and their calls in eval/src/eval.rs:158-172, 500-507.
    Simplified: an inline node is a piece of HTML, a node that writes something before and after its children (quotes, links ...) or a footnote; a block is a
    paragraph with an optional title. The backend for the content of an AsciiDoc table cell has buffers of its own and the same list of footnotes; it is not
    modelled. *)
From Verif Require Import Base.

(** ast: the inline nodes, as far as they matter here *)
Inductive node :=
| Txt (t : bytes)
| Wrap (before after : bytes) (children : list node)
| Foot (id : option bytes) (text : list node).

(** the two HTML backends *)
Inductive style := Asciidoctor | Html5s.

(** [html] and [alt_html] of the backend, and [state.footnotes] *)
Record state := State { html : bytes; alt : bytes; notes : list (option bytes * bytes) }.

(** HtmlBuf::push_str *)
Definition push (t : bytes) (s : state) : state := State (html s ++ t) (alt s) (notes s).

(** htmlbuf.rs:144-147 *)
Definition swap_buffers (s : state) : state := State (alt s) (html s) (notes s).
(** htmlbuf.rs:135-138; debug builds check the assertion *)
Definition start_buffering (debug : bool) (s : state) : outcome state :=
  match alt s with
  | _ :: _ => if debug then Panic else Ret (swap_buffers s)
  | [] => Ret (swap_buffers s)
  end.
(** htmlbuf.rs:121-125 *)
Definition swap_take_buffer (s : state) : bytes * state := (html s, State (alt s) [] (notes s)).
(** htmlbuf.rs:116-118 *)
Definition take_buffer (s : state) : bytes * state := (alt s, State (html s) [] (notes s)).

Definition same_id (x y : option bytes) : bool :=
  match x, y with Some a, Some c => bytes_eqb a c | _, _ => false end.
(** backend.rs:438-450; [i] is the position the list starts at *)
Fixpoint prev_from (i : nat) (ns : list (option bytes * bytes)) (id : option bytes) : option nat :=
  match ns with [] => None | (prev, _) :: r => if same_id prev id then Some (i + 1) else prev_from (S i) r id end.
Definition prev_footnote_ref_num (s : state) (id : option bytes) : option nat := prev_from 0 (notes s) id.

Definition q : bytes := ["034"%char].
(** usize::to_string *)
Definition num (n : nat) : bytes := b (dec n).
(** asciidoctor_html.rs:1464-1470, html5s.rs:1415-1425: the reference to a footnote that has a number *)
Definition ref_again (st : style) (n : nat) : bytes :=
  match st with
  | Asciidoctor => $"<sup class=" ++ q ++ $"footnoteref" ++ q ++ $">[<a class=" ++ q ++ $"footnote" ++ q ++ $" href=" ++ q ++ $"#_footnotedef_" ++ num n ++ q
      ++ $" title=" ++ q ++ $"View footnote." ++ q ++ $">" ++ num n ++ $"</a>]</sup>"
  | Html5s => $"<a class=" ++ q ++ $"footnote-ref" ++ q ++ $" href=" ++ q ++ $"#_footnote_" ++ num n ++ q
      ++ $" title=" ++ q ++ $"View footnote " ++ num n ++ q ++ $" role=" ++ q ++ $"doc-noteref" ++ q ++ $">[" ++ num n ++ $"]</a>"
  end.
(** asciidoctor_html.rs:1484-1491, html5s.rs:1437-1451: the reference where the footnote is *)
Definition ref_first (st : style) (id : option bytes) (n : nat) : bytes :=
  match st with
  | Asciidoctor => $"<sup class=" ++ q ++ $"footnote" ++ q ++ match id with Some i => $" id=" ++ q ++ $"_footnote_" ++ i ++ q | None => [] end
      ++ $">[<a id=" ++ q ++ $"_footnoteref_" ++ num n ++ q ++ $" class=" ++ q ++ $"footnote" ++ q ++ $" href=" ++ q ++ $"#_footnotedef_" ++ num n ++ q
      ++ $" title=" ++ q ++ $"View footnote." ++ q ++ $">" ++ num n ++ $"</a>]</sup>"
  | Html5s => $"<a class=" ++ q ++ $"footnote-ref" ++ q ++ $" id=" ++ q ++ $"_footnoteref_" ++ num n ++ q ++ $" href=" ++ q ++ $"#_footnote_" ++ num n ++ q
      ++ $" title=" ++ q ++ $"View footnote " ++ num n ++ q ++ $" role=" ++ q ++ $"doc-noteref" ++ q ++ $">[" ++ num n ++ $"]</a>"
  end.
(** asciidoctor_html.rs:1612-1616, html5s.rs:1529-1537: one entry of the list of footnotes *)
Definition entry (st : style) (n : nat) (text : bytes) : bytes :=
  match st with
  | Asciidoctor => $"<div class=" ++ q ++ $"footnote" ++ q ++ $" id=" ++ q ++ $"_footnotedef_" ++ num n ++ q ++ $"><a href=" ++ q ++ $"#_footnoteref_" ++ num n ++ q
      ++ $">" ++ num n ++ $"</a>. " ++ text ++ $"</div>"
  | Html5s => $"<li class=" ++ q ++ $"footnote" ++ q ++ $" id=" ++ q ++ $"_footnote_" ++ num n ++ q ++ $" role=" ++ q ++ $"doc-endnote" ++ q ++ $">" ++ text
      ++ $" <a class=" ++ q ++ $"footnote-backref" ++ q ++ $" href=" ++ q ++ $"#_footnoteref_" ++ num n ++ q ++ $" role=" ++ q ++ $"doc-backlink" ++ q
      ++ $" title=" ++ q ++ $"Jump to the first occurrence in the text" ++ q ++ $">&#8617;</a></li>"
  end.
(** asciidoctor_html.rs:1607-1608, 1664-1672 (without max-width), html5s.rs:1524-1525 *)
Definition list_start (st : style) : bytes :=
  match st with
  | Asciidoctor => $"<div id=" ++ q ++ $"footnotes" ++ q ++ $"><hr>"
  | Html5s => $"<section class=" ++ q ++ $"footnotes" ++ q ++ $" aria-label=" ++ q ++ $"Footnotes" ++ q ++ $" role=" ++ q ++ $"doc-endnotes" ++ q ++ $"><hr><ol class="
      ++ q ++ $"footnotes" ++ q ++ $">"
  end.
Definition list_end (st : style) : bytes := match st with Asciidoctor => $"</div>" | Html5s => $"</ol></section>" end.

(** asciidoctor_html.rs:1462-1473, html5s.rs:1414-1427 *)
Definition enter_footnote (st : style) (debug : bool) (id : option bytes) (s : state) : outcome state :=
  start_buffering debug (match prev_footnote_ref_num s id with Some n => push (ref_again st n) s | None => s end).
(** asciidoctor_html.rs:1476-1497, html5s.rs:1429-1452 *)
Definition exit_footnote (st : style) (id : option bytes) (s : state) : state :=
  match prev_footnote_ref_num s id with
  | Some _ => snd (swap_take_buffer s)
  | None =>
      let nr := length (notes s) + 1 in
      let (footnote, s1) := swap_take_buffer s in
      let s2 := push (ref_first st id nr) s1 in
      State (html s2) (alt s2) (notes s2 ++ [(id, footnote)])
  end.

Definition obind {A B} (o : outcome A) (f : A -> outcome B) : outcome B := match o with Ret a => f a | Panic => Panic end.

(** eval.rs:469-: eval_inline *)
Fixpoint eval_inline (st : style) (debug : bool) (n : node) (s : state) {struct n} : outcome state :=
  let eval_all := fix go (l : list node) (s : state) : outcome state :=
    match l with [] => Ret s | x :: r => obind (eval_inline st debug x s) (go r) end in
  match n with
  | Txt t => Ret (push t s)
  | Wrap o c ch => obind (eval_all ch (push o s)) (fun s' => Ret (push c s'))
  | Foot id text => obind (enter_footnote st debug id s) (fun s1 => obind (eval_all text s1) (fun s2 => Ret (exit_footnote st id s2)))
  end.
(** nodes.iter().for_each(|n| eval_inline(n, ctx, backend)) *)
Fixpoint eval_inlines (st : style) (debug : bool) (l : list node) (s : state) : outcome state :=
  match l with [] => Ret s | x :: r => obind (eval_inline st debug x s) (eval_inlines st debug r) end.

(** a paragraph: what is written before its title, its title, what is written before and after its content *)
Record block := Block { opening : bytes; title : option (list node); middle : bytes; body : list node; closing : bytes }.
(** what is written around the title: asciidoctor_html.rs:1565-1590, html5s.rs:1492-1521 *)
Definition title_open (st : style) : bytes := match st with Asciidoctor => $"<div class=" ++ q ++ $"title" ++ q ++ $">" | Html5s => $"<h6 class=" ++ q ++ $"block-title" ++ q ++ $">" end.
Definition title_close (st : style) : bytes := match st with Asciidoctor => $"</div>" | Html5s => $"</h6>" end.

(** eval.rs:158-172 with asciidoctor_html.rs:304-320, 739-760, 1558-1563 *)
Definition eval_block (st : style) (debug : bool) (bl : block) (s : state) : outcome state :=
  obind (match title bl with
         | Some t => obind (start_buffering debug s) (fun s1 => obind (eval_inlines st debug t s1) (fun s2 => Ret (swap_buffers s2)))
         | None => Ret s
         end) (fun s1 =>
  let s2 := push (opening bl) s1 in
  let s3 := match title bl with
            | Some _ => let (buf, s') := take_buffer s2 in push (title_close st) (push buf (push (title_open st) s'))
            | None => s2
            end in
  obind (eval_inlines st debug (body bl) (push (middle bl) s3)) (fun s4 => Ret (push (closing bl) s4))).
Fixpoint eval_blocks (st : style) (debug : bool) (l : list block) (s : state) : outcome state :=
  match l with [] => Ret s | x :: r => obind (eval_block st debug x s) (eval_blocks st debug r) end.

Fixpoint entries (st : style) (i : nat) (ns : list (option bytes * bytes)) : bytes :=
  match ns with [] => [] | (_, text) :: r => entry st (i + 1) text ++ entries st (S i) r end.
(** asciidoctor_html.rs:112-117, 1606-1620, html5s.rs:104-108, 1523-1541 *)
Definition render_footnotes (st : style) (s : state) : state :=
  match notes s with [] => s | _ => push (list_start st ++ entries st 0 (notes s) ++ list_end st) s end.

(** the whole document: the blocks and then the footnotes *)
Definition convert (st : style) (debug : bool) (l : list block) : outcome bytes :=
  obind (eval_blocks st debug l (State [] [] [])) (fun s => Ret (html (render_footnotes st s))).
