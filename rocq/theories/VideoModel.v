(** The addresses and elements of videos of a service: backend/src/html/video.rs.  What the code pushes to the HTML
    is kept as text, with the flag [param_pushed]. *)
From Verif Require Import Base AttrLookupModel.
From Verif Require EscapeModel.
Import ListNotations.

(** 191-236 *)
Inductive provider := YouTube | Vimeo | Wistia.
Definition url_start (p : provider) : bytes :=
  match p with YouTube => $"https://www.youtube.com/embed/" | Vimeo => $"https://player.vimeo.com/video/" | Wistia => $"https://fast.wistia.com/embed/iframe/" end.
Definition slash_param (p : provider) : option bytes := match p with YouTube => Some $"list" | Vimeo => Some $"h" | Wistia => None end.
Definition simple_param_pairs (p : provider) : list (bytes * bytes) :=
  match p with
  | YouTube => [($"autoplay", $"autoplay=1"); ($"muted", $"mute=1"); ($"modest", $"modestbranding=1"); ($"loop", $"loop=1")]
  | Vimeo => [($"autoplay", $"autoplay=1"); ($"muted", $"muted=1"); ($"loop", $"loop=1")]
  | Wistia => [($"autoplay", $"autoPlay=true"); ($"muted", $"muted=true"); ($"loop", $"endVideoBehavior=loop"); ($"reset", $"endVideoBehavior=reset")]
  end.
Definition is_youtube (p : provider) : bool := match p with YouTube => true | _ => false end.

(** the HTML so far, and whether a parameter has been pushed *)
Record state := State { out : bytes; pushed : bool }.
Definition push (x : list bytes) (s : state) : state := State (out s ++ concat x) (pushed s).
Definition mark (s : state) : state := State (out s) true.
(** [iff!(param_pushed, "&amp;", "?")] and what follows it, and the flag *)
Definition param (x : list bytes) (s : state) : state := mark (push ((if pushed s then $"&amp;" else $"?") :: x) s).
Definition when {A} (o : option A) (f : A -> state -> state) (s : state) : state := match o with Some x => f x s | None => s end.
Definition iff (b : bool) (f : state -> state) (s : state) : state := if b then f s else s.

(** str::split_once *)
Fixpoint split_once (c : ascii) (l : bytes) : option (bytes * bytes) :=
  match l with
  | [] => None
  | x :: r => if Ascii.eqb x c then Some ([], r) else match split_once c r with Some (u, v) => Some (x :: u, v) | None => None end
  end.
Definition contains (c : ascii) (l : bytes) : bool := existsb (Ascii.eqb c) l.
(** 34-41 *)
Fixpoint others (l : list bytes) (s : state) : state := match l with [] => s | x :: r => others r (push [$","; x] s) end.
Definition ids (l : list bytes) (s : state) : state :=
  match l with [] => s | x :: r => others r (mark (push [x; $"?playlist="; x] s)) end.
(** 27-53 *)
Definition push_target (p : provider) (target : bytes) (a : attr_list) (s : state) : state :=
  match slash_param p, split_once "/"%char target with
  | Some k, Some (id, hash) => mark (push [id; $"?"; k; $"="; hash] s)
  | _, _ =>
      if is_youtube p && contains ","%char target then ids (split_byte ","%char target) s
      else match (if is_youtube p then named1 $"playlist" a else None) with
           | Some playlist => mark (push [target; $"?playlist="; target; $","; playlist] s)
           | None => when (named1 $"hash" a) (fun h => param [$"h="; h]) (push [target] s)
           end
  end.
(** 55-60 *)
Fixpoint simple_params (l : list (bytes * bytes)) (a : attr_list) (s : state) : state :=
  match l with [] => s | (o, k) :: r => simple_params r a (iff (has_option1 o a) (param [k]) s) end.
(** 138-176 *)
Definition more_youtube_params (a : attr_list) (target : bytes) (s : state) : state :=
  let s := param [$"rel="; if has_option1 $"related" a then $"1" else $"0"] s in
  let s := when (named1 $"theme" a) (fun x => param [$"theme="; x]) s in
  let s := when (named1 $"lang" a) (fun x => param [$"hl="; x]) s in
  let s := when (named1 $"end" a) (fun x => param [$"end="; x]) s in
  let s := iff (has_option1 $"nofullscreen" a) (param [$"fs=0"]) s in
  let s := iff (has_option1 $"nocontrols" a) (param [$"controls=0"]) s in
  match named1 $"list" a with
  | Some list => param [$"list="; list] s
  | None => iff (has_option1 $"loop" a && negb (contains "/"%char target || contains ","%char target)) (param [$"playlist="; target]) s
  end.
(** 24-73: what stands between the quotes of the src attribute *)
Definition video_url (p : provider) (target : bytes) (a : attr_list) : bytes :=
  let s := push [url_start p] (State [] false) in
  let s := push_target p target a s in
  let s := simple_params (simple_param_pairs p) a s in
  let s := iff (is_youtube p) (more_youtube_params a target) s in
  out (match named1 $"start" a with
       | None => s
       | Some x => match p with
                   | YouTube => push [if pushed s then $"&amp;" else $"?"; $"start="; x] s
                   | Wistia => push [if pushed s then $"&amp;" else $"?"; $"time="; x] s
                   | Vimeo => push [$"#at="; x] s
                   end
       end).

(** 178-189 *)
Definition push_dims (a : attr_list) : bytes :=
  (match named1 $"width" a with
   | Some w => EscapeModel.html_attr $"width" w
   | None => match str_positional1 1 a with Some w => EscapeModel.html_attr $"width" w | None => [] end
   end)
  ++ (match named1 $"height" a with
      | Some h => EscapeModel.html_attr $"height" h
      | None => match str_positional1 2 a with Some h => EscapeModel.html_attr $"height" h | None => [] end
      end).
(** 16-86: the whole element *)
Definition service (p : provider) (target : bytes) (a : attr_list) : bytes :=
  $"<iframe" ++ push_dims a ++ $" src=""" ++ video_url p target a ++ $""" frameborder=""0"""
  ++ (if negb (has_option1 $"nofullscreen" a) then $" allowfullscreen" else [])
  ++ (match p with Wistia => $" class=""wistia_embed"" name=""wistia_embed""" | _ => [] end)
  ++ $">" ++ $"</iframe>".
(** core/src/regx.rs:67, URI_SNIFF: a letter, at least one of the characters of schemes, and a colon (the slashes may be none) *)
Definition between (l h : nat) (c : ascii) : bool := Nat.leb l (nat_of_ascii c) && Nat.leb (nat_of_ascii c) h.
Definition letter (c : ascii) : bool := between 97 122 c || between 65 90 c.
Definition scheme_char (c : ascii) : bool := letter c || between 48 57 c || contains c $".+-".
Fixpoint scheme_rest (seen : bool) (s : bytes) : bool :=
  match s with [] => false | c :: r => if scheme_char c then scheme_rest true r else seen && Ascii.eqb c ":"%char end.
Definition uri_sniff (s : bytes) : bool := match s with c :: r => letter c && scheme_rest false r | [] => false end.
(** 88-137, with the value of imagesdir *)
Definition native_element (imagesdir : option bytes) (target : bytes) (a : attr_list) (poster : option bytes) : bytes :=
  $"<video src="""
  ++ (match imagesdir with Some d => if negb (uri_sniff target) then d ++ $"/" else [] | None => [] end)
  ++ target
  ++ (match named1 $"start" a, named1 $"end" a with
      | None, Some e => $"#t=," ++ e ++ $""""
      | Some s, None => $"#t=" ++ s ++ $""""
      | Some s, Some e => $"#t=" ++ s ++ $"," ++ e ++ $""""
      | None, None => $""""
      end)
  ++ push_dims a
  ++ (match poster with
      | Some x =>
          match imagesdir with
          | Some d => if negb (uri_sniff x) then $" poster=""" ++ d ++ $"/" ++ x ++ $"""" else EscapeModel.html_attr $"poster" x
          | None => EscapeModel.html_attr $"poster" x
          end
      | None => []
      end)
  ++ (if has_option1 $"autoplay" a then $" autoplay" else [])
  ++ (if has_option1 $"muted" a then $" muted" else [])
  ++ (if has_option1 $"loop" a then $" loop" else [])
  ++ (match named1 $"preload" a with Some x => EscapeModel.html_attr $"preload" x | None => [] end)
  ++ (if negb (has_option1 $"nocontrols" a) then $" controls" else [])
  ++ $">Your browser does not support the video tag.</video>".
(** 6-14 *)
Definition element (imagesdir : option bytes) (target : bytes) (a : attr_list) : bytes :=
  let poster := str_positional1 0 a in
  if is_text poster $"youtube" then service YouTube target a
  else if is_text poster $"vimeo" then service Vimeo target a
  else if is_text poster $"wistia" then service Wistia target a
  else native_element imagesdir target a (or_else (named1 $"poster" a) poster).
