(** What C83 and C84 say: the address of a video, made of the address of the service, the video, parameters and a fragment. *)
From Verif Require Import Base AttrLookupModel AttrLookupSpec VideoModel.
From Verif Require EscapeModel.
Import ListNotations.

(** the parameters of an address: the first one after a question mark, the others after ampersands *)
Definition query (ps : list bytes) : bytes :=
  match ps with [] => [] | p :: r => $"?" ++ p ++ concat (map (fun x => $"&amp;" ++ x) r) end.
Definition address (service video : bytes) (ps : list bytes) (fragment : bytes) : bytes := service ++ video ++ query ps ++ fragment.

(** the parameter that an attribute or an option gives *)
Definition from_attr (a : attr_list) (key name : bytes) : list bytes := match named1 key a with Some x => [name ++ $"=" ++ x] | None => [] end.
Definition from_option (a : attr_list) (o x : bytes) : list bytes := if has_option1 o a then [x] else [].

(** the video and the parameters that come with it *)
Inductive target_gives (a : attr_list) : provider -> bytes -> bytes -> list bytes -> Prop :=
| ListOfYouTube id l : ~ In "/"%char id -> target_gives a YouTube (id ++ $"/" ++ l) id [$"list=" ++ l]
| HashOfVimeo id h : ~ In "/"%char id -> target_gives a Vimeo (id ++ $"/" ++ h) id [$"h=" ++ h]
| VideosOfYouTube id r : ~ In "/"%char (id ++ $"," ++ r) -> ~ In ","%char id -> target_gives a YouTube (id ++ $"," ++ r) id [$"playlist=" ++ id ++ $"," ++ r]
| PlaylistOfYouTube id l : ~ In "/"%char id -> ~ In ","%char id -> named1 $"playlist" a = Some l -> target_gives a YouTube id id [$"playlist=" ++ id ++ $"," ++ l]
| OneOfYouTube id : ~ In "/"%char id -> ~ In ","%char id -> named1 $"playlist" a = None -> target_gives a YouTube id id (from_attr a $"hash" $"h")
| OneOfVimeo id : ~ In "/"%char id -> target_gives a Vimeo id id (from_attr a $"hash" $"h")
| OneOfWistia id : target_gives a Wistia id id (from_attr a $"hash" $"h").
(** the parameters for options and attributes *)
Definition settings_give (a : attr_list) (p : provider) (target : bytes) : list bytes :=
  match p with
  | YouTube =>
      from_option a $"autoplay" $"autoplay=1" ++ from_option a $"muted" $"mute=1" ++ from_option a $"modest" $"modestbranding=1" ++ from_option a $"loop" $"loop=1"
      ++ [$"rel=" ++ if has_option1 $"related" a then $"1" else $"0"]
      ++ from_attr a $"theme" $"theme" ++ from_attr a $"lang" $"hl" ++ from_attr a $"end" $"end"
      ++ from_option a $"nofullscreen" $"fs=0" ++ from_option a $"nocontrols" $"controls=0"
      ++ match named1 $"list" a with
         | Some x => [$"list=" ++ x]
         | None => if existsb (fun c => Ascii.eqb c "/"%char || Ascii.eqb c ","%char) target then [] else from_option a $"loop" ($"playlist=" ++ target)
         end
      ++ from_attr a $"start" $"start"
  | Vimeo => from_option a $"autoplay" $"autoplay=1" ++ from_option a $"muted" $"muted=1" ++ from_option a $"loop" $"loop=1"
  | Wistia =>
      from_option a $"autoplay" $"autoPlay=true" ++ from_option a $"muted" $"muted=true" ++ from_option a $"loop" $"endVideoBehavior=loop"
      ++ from_option a $"reset" $"endVideoBehavior=reset" ++ from_attr a $"start" $"time"
  end.
Definition fragment_of (a : attr_list) (p : provider) : bytes :=
  match p, named1 $"start" a with Vimeo, Some x => $"#at=" ++ x | _, _ => [] end.
(** the service *)
Definition service_of (p : provider) : bytes :=
  match p with YouTube => $"https://www.youtube.com/embed/" | Vimeo => $"https://player.vimeo.com/video/" | Wistia => $"https://fast.wistia.com/embed/iframe/" end.

(** an element whose attributes have a value or none *)
Definition quoted (x : bytes) : bytes := $"""" ++ x ++ $"""".
Definition attribute (x : bytes * option bytes) : bytes := $" " ++ fst x ++ match snd x with Some v => $"=" ++ quoted v | None => [] end.
Definition html (name : bytes) (attrs : list (bytes * option bytes)) (content : bytes) : bytes :=
  $"<" ++ name ++ concat (map attribute attrs) ++ $">" ++ content ++ $"</" ++ name ++ $">".
(** a size, escaped as attributes are (C31), as a named attribute or by its position after the service *)
Definition size (a : attr_list) (name : bytes) (position : nat) : list (bytes * option bytes) :=
  match named1 name a, str_positional1 position a with
  | Some x, _ => [(name, Some (EscapeModel.push_escaped true x))]
  | None, Some x => [(name, Some (EscapeModel.push_escaped true x))]
  | None, None => []
  end.
Definition name_of (p : provider) : bytes := match p with YouTube => $"youtube" | Vimeo => $"vimeo" | Wistia => $"wistia" end.
(** the element of a video of a service with an address *)
Definition frame (a : attr_list) (p : provider) (url : bytes) : bytes :=
  html $"iframe"
    (size a $"width" 1 ++ size a $"height" 2 ++ [($"src", Some url); ($"frameborder", Some $"0")]
     ++ (if has_option1 $"nofullscreen" a then [] else [($"allowfullscreen", None)])
     ++ match p with Wistia => [($"class", Some $"wistia_embed"); ($"name", Some $"wistia_embed")] | _ => [] end) [].

(** ** Files: C84 *)
(** an address that names its scheme, such as https: *)
Definition is_letter (c : ascii) : Prop := In c $"abcdefghijklmnopqrstuvwxyzABCDEFGHIJKLMNOPQRSTUVWXYZ".
Definition in_scheme (c : ascii) : Prop := is_letter c \/ In c $"0123456789.+-".
Definition has_scheme (x : bytes) : Prop := exists c m r, x = c :: m ++ $":" ++ r /\ is_letter c /\ m <> [] /\ Forall in_scheme m.
(** a file is in the directory of the images, if there is one, unless its address has a scheme *)
Definition in_images (dir : option bytes) (x : bytes) (d : bytes) : Prop := dir = Some d /\ ~ has_scheme x.
Definition not_in_images (dir : option bytes) (x : bytes) : Prop := dir = None \/ has_scheme x.
Inductive located (dir : option bytes) (x : bytes) : bytes -> Prop :=
| Inside d : in_images dir x d -> located dir x (d ++ $"/" ++ x)
| Elsewhere : not_in_images dir x -> located dir x x.
(** the picture shown before the video: the attribute poster, or else the first one by position; only elsewhere is it escaped *)
Inductive poster_gives (dir : option bytes) (a : attr_list) : list (bytes * option bytes) -> Prop :=
| NoPoster : named1 $"poster" a = None -> str_positional1 0 a = None -> poster_gives dir a []
| PosterInside x d : (named1 $"poster" a = Some x \/ named1 $"poster" a = None /\ str_positional1 0 a = Some x) -> in_images dir x d ->
    poster_gives dir a [($"poster", Some (d ++ $"/" ++ x))]
| PosterElsewhere x : (named1 $"poster" a = Some x \/ named1 $"poster" a = None /\ str_positional1 0 a = Some x) -> not_in_images dir x ->
    poster_gives dir a [($"poster", Some (EscapeModel.push_escaped true x))].
(** the part of the video that is shown *)
Definition time_of (a : attr_list) : bytes :=
  match named1 $"start" a, named1 $"end" a with
  | None, None => []
  | s, e => $"#t=" ++ match s with Some x => x | None => [] end ++ match e with Some x => $"," ++ x | None => [] end
  end.
Definition switch (a : attr_list) (o : bytes) : list (bytes * option bytes) := if has_option1 o a then [(o, None)] else [].
(** the element of a video file at an address, with a picture *)
Definition player (a : attr_list) (url : bytes) (poster : list (bytes * option bytes)) : bytes :=
  html $"video"
    ([($"src", Some (url ++ time_of a))] ++ size a $"width" 1 ++ size a $"height" 2 ++ poster
     ++ switch a $"autoplay" ++ switch a $"muted" ++ switch a $"loop"
     ++ match named1 $"preload" a with Some x => [($"preload", Some (EscapeModel.push_escaped true x))] | None => [] end
     ++ if has_option1 $"nocontrols" a then [] else [($"controls", None)])
    $"Your browser does not support the video tag.".
