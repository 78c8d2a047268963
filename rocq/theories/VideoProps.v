(** C83: the address of an embedded video.  The model is VideoModel.v, the specification VideoSpec.v. *)
From Verif Require Import Base AttrLookupModel VideoModel VideoSpec VideoProofs.
Import ListNotations.

(** For every service, target and attribute list, the address is that of the service, then the video, then the parameters, the
    first after a question mark and all others after ampersands, then the fragment. *)
Theorem C83_address : forall a p target video params,
  target_gives a p target video params ->
  video_url p target a = address (service_of p) video (params ++ settings_give a p target) (fragment_of a p).
Proof. exact url_is. Qed.
Print Assumptions C83_address.
(** There is always such a video. *)
Theorem C83_total : forall a p target, exists video params,
  target_gives a p target video params
  /\ video_url p target a = address (service_of p) video (params ++ settings_give a p target) (fragment_of a p).
Proof. intros a p t. destruct (target_total a p t) as (v & ps & T). exists v, ps. split; [exact T|apply url_is, T]. Qed.
Print Assumptions C83_total.

Definition plain : attr_list := AttrList [] [] None [] [].
Definition busy : attr_list := AttrList [] [($"start", [Word $"60"]); ($"theme", [Word $"light"])] None [] [$"muted"; $"loop"].
Example C83_case :
  target_gives busy YouTube $"abc,def" $"abc" [$"playlist=abc,def"] /\ target_gives busy Vimeo $"67480300/123" $"67480300" [$"h=123"]
  /\ video_url YouTube $"abc,def" busy = $"https://www.youtube.com/embed/abc?playlist=abc,def&amp;mute=1&amp;loop=1&amp;rel=0&amp;theme=light&amp;start=60"
  /\ video_url Vimeo $"67480300/123" busy = $"https://player.vimeo.com/video/67480300?h=123&amp;muted=1&amp;loop=1#at=60"
  /\ video_url Wistia $"xyz" plain = $"https://fast.wistia.com/embed/iframe/xyz".
Proof.
  split; [apply (VideosOfYouTube busy $"abc" $"def"); cbn; intuition discriminate|].
  split; [apply (HashOfVimeo busy $"67480300" $"123"); cbn; intuition discriminate|]. vm_compute. auto.
Qed.

(** If neither the video nor the parameters nor the fragment hold a question mark, the address holds one when it has parameters
    and none otherwise. *)
Theorem C83_one_question_mark : forall a p target video params,
  target_gives a p target video params ->
  ~ In "?"%char video -> Forall (fun x => ~ In "?"%char x) (params ++ settings_give a p target) -> ~ In "?"%char (fragment_of a p) ->
  count_occ ascii_dec (video_url p target a) "?"%char = match params ++ settings_give a p target with [] => 0 | _ => 1 end.
Proof.
  intros a p t v ps T NV F NF. rewrite (url_is a p t v ps T). unfold address. rewrite !count_occ_app, (count_query _ F), (count_none _ _ NV), (count_none _ _ NF).
  destruct p; cbn [service_of]; destruct (ps ++ _); reflexivity.
Qed.
Print Assumptions C83_one_question_mark.
Example C83_one_question_mark_case :
  target_gives busy Vimeo $"67480300/123" $"67480300" [$"h=123"] /\ ~ In "?"%char $"67480300"
  /\ Forall (fun x => ~ In "?"%char x) ([$"h=123"] ++ settings_give busy Vimeo $"67480300/123") /\ ~ In "?"%char (fragment_of busy Vimeo)
  /\ count_occ ascii_dec (video_url Vimeo $"67480300/123" busy) "?"%char = 1.
Proof.
  split; [apply (HashOfVimeo busy $"67480300" $"123"); cbn; intuition discriminate|]. split; [cbn; intuition discriminate|].
  split; [vm_compute; repeat constructor; intuition discriminate|]. split; [vm_compute; intuition discriminate|vm_compute; reflexivity].
Qed.

(** A parameter may be given twice: a Wistia video with the options loop and reset, a looping YouTube video with a playlist, and
    one with a list both after its slash and as an attribute. *)
Theorem C83_each_parameter_once_refuted :
  video_url Wistia $"xyz" (AttrList [] [] None [] [$"loop"; $"reset"])
    = $"https://fast.wistia.com/embed/iframe/xyz?endVideoBehavior=loop&amp;endVideoBehavior=reset"
  /\ video_url YouTube $"a" (AttrList [] [($"playlist", [Word $"b,c"])] None [] [$"loop"])
    = $"https://www.youtube.com/embed/a?playlist=a,b,c&amp;loop=1&amp;rel=0&amp;playlist=a"
  /\ video_url YouTube $"a/L" (AttrList [] [($"list", [Word $"M"])] None [] [])
    = $"https://www.youtube.com/embed/a?list=L&amp;rel=0&amp;list=M".
Proof. vm_compute. auto. Qed.
Print Assumptions C83_each_parameter_once_refuted.
(** A quote in an attribute's value is not escaped, so it ends the src attribute that holds the address. *)
Theorem C83_quotes_escaped_refuted :
  video_url Vimeo $"a" (AttrList [] [($"hash", [Word (ascii_of_nat 34 :: $" onload=x")])] None [] [])
    = $"https://player.vimeo.com/video/a?h=" ++ ascii_of_nat 34 :: $" onload=x".
Proof. vm_compute. reflexivity. Qed.
Print Assumptions C83_quotes_escaped_refuted.

(** The whole element: a video whose first attribute is the name of a service is a frame for its address, with the sizes given, that
    may be shown on the full screen unless this is switched off. *)
Theorem C83_frame : forall imagesdir a p target video params,
  str_positional1 0 a = Some (name_of p) -> target_gives a p target video params ->
  element imagesdir target a = frame a p (address (service_of p) video (params ++ settings_give a p target) (fragment_of a p)).
Proof. intros dir a p t v ps E T. rewrite <- (url_is a p t v ps T). apply element_frame, E. Qed.
Print Assumptions C83_frame.
Definition sized : attr_list := AttrList [Some [Word $"vimeo"]; Some [Word $"640"]] [($"height", [Word $"480"])] None [] [$"loop"].
Example C83_frame_case :
  str_positional1 0 sized = Some (name_of Vimeo) /\ target_gives sized Vimeo $"67" $"67" []
  /\ element None $"67" sized
     = $"<iframe width=""640"" height=""480"" src=""https://player.vimeo.com/video/67?loop=1"" frameborder=""0"" allowfullscreen></iframe>".
Proof.
  split; [reflexivity|]. split; [|vm_compute; reflexivity]. apply (OneOfVimeo sized $"67"). cbn. intuition discriminate.
Qed.

(** C84: any other video is a player for the file, which is looked for in the directory of the images unless its address has a scheme. *)
Theorem C84_player : forall imagesdir a target url poster,
  (forall p, str_positional1 0 a <> Some (name_of p)) -> located imagesdir target url -> poster_gives imagesdir a poster ->
  element imagesdir target a = player a url poster.
Proof. exact element_player. Qed.
Print Assumptions C84_player.
(** Every target and every attribute list is such a case. *)
Theorem C84_total : forall imagesdir a target,
  (forall p, str_positional1 0 a <> Some (name_of p)) ->
  exists url poster, located imagesdir target url /\ poster_gives imagesdir a poster /\ element imagesdir target a = player a url poster.
Proof.
  intros dir a t N. destruct (located_total dir t) as (u & L), (poster_total dir a) as (ps & P). exists u, ps.
  split; [exact L|]. split; [exact P|]. exact (element_player dir a t u ps N L P).
Qed.
Print Assumptions C84_total.
Definition film : attr_list := AttrList [Some [Word $"first.png"]; Some [Word $"640"]] [($"end", [Word $"90"])] None [] [$"loop"].
Example C84_case :
  (forall p, str_positional1 0 film <> Some (name_of p)) /\ located (Some $"img") $"cats.mp4" $"img/cats.mp4"
  /\ located (Some $"img") $"https://x.org/cats.mp4" $"https://x.org/cats.mp4" /\ poster_gives (Some $"img") film [($"poster", Some $"img/first.png")]
  /\ element (Some $"img") $"cats.mp4" film
     = $"<video src=""img/cats.mp4#t=,90"" width=""640"" poster=""img/first.png"" loop controls>Your browser does not support the video tag.</video>".
Proof.
  split; [intros []; discriminate|]. split; [apply (Inside (Some $"img") $"cats.mp4" $"img"); split; [reflexivity|apply sniff_false; reflexivity]|].
  split; [right; right; apply sniff_iff; reflexivity|].
  split; [apply (PosterInside (Some $"img") film $"first.png" $"img"); [right; split; reflexivity|split; [reflexivity|apply sniff_false; reflexivity]]|].
  vm_compute. reflexivity.
Qed.
(** The picture's address is escaped only if it is not in the directory of the images: the same name gives an attribute that is closed
    early as soon as imagesdir is set. *)
Theorem C84_poster_escaped_refuted :
  let a := AttrList [Some [Word $"x"" onload=y"]] [] None [] [$"nocontrols"] in
  element None $"c" a = $"<video src=""c"" poster=""x&quot; onload=y"">Your browser does not support the video tag.</video>"
  /\ element (Some $"i") $"c" a = $"<video src=""i/c"" poster=""i/x"" onload=y"">Your browser does not support the video tag.</video>".
Proof. vm_compute. auto. Qed.
Print Assumptions C84_poster_escaped_refuted.
