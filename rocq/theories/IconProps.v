(** C81: every admonition shows its own icon. *)
From Verif Require Import Base Base64Model Base64Spec IconModel IconSpec IconProofs.
Import ListNotations.
Open Scope N_scope.

(** Places in the sources have different numbers, and the numbers fit 64 bits. *)
Theorem C81_places_told_apart : forall p q, fits p -> fits q -> (uid p = uid q <-> p = q) /\ uid p < 2 ^ 64.
Proof.
  intros p q P Q. split; [split; [now apply uid_inj|congruence]|]. rewrite (uid_sum p P). destruct P as (A & B).
  change (2 ^ 64) with 18446744073709551616. change (2 ^ 32) with 4294967296 in *. change (2 ^ 16) with 65536 in A. lia.
Qed.
Print Assumptions C81_places_told_apart.

(** C81: in every document, however its blocks are spread over sources and whatever attributes are set between them, an admonition
    paragraph for which data are wanted finds the data of its own icon, encoded in base 64, and no other block finds any. *)
Theorem C81_own_icon_partial : forall files l, files_of_bytes files ->
  Forall (fun p => fits (at_place (snd p))) l -> NoDup (map (fun p => at_place (snd p)) l) ->
  exists t, parse files l [] = Ret t /\ forall s b, In (s, b) l -> right_icon files s b (found t b).
Proof.
  intros files l F FT ND. destruct (parse_get files F l [] FT ND) as (t & P & _ & R); [reflexivity|]. exists t. auto.
Qed.
Print Assumptions C81_own_icon_partial.

Definition with_data := Settings (Some (VBool true)) (Some (VBool true)) None None false.
Definition some_files (n : bytes) : option (list N) := if bytes_eqb n $"note.png" then Some [77; 97; 110] else if bytes_eqb n $"my.png" then Some [77] else None.
(** two notes at the same place of two sources, one with its own icon, and a block of another kind *)
Definition some_blocks : list (settings * block) :=
  [(with_data, Block (Place 1 7) (Some Note) false None); (with_data, Block (Place 2 7) (Some Note) false (Some $"my")); (with_data, Block (Place 0 7) None false None)].
Example C81_case :
  exists t, parse some_files some_blocks [] = Ret t
  /\ map (fun p => found t (snd p)) some_blocks = [Some $"data:image/png;base64,TWFu"; Some $"data:image/png;base64,TQ=="; None]
  /\ files_of_bytes some_files /\ Forall (fun p => fits (at_place (snd p))) some_blocks /\ NoDup (map (fun p => at_place (snd p)) some_blocks) /\ wants_data with_data.
Proof.
  eexists. split; [vm_compute; reflexivity|]. split; [vm_compute; reflexivity|]. split; [|split; [|split]].
  - intros n l. unfold some_files. destruct (bytes_eqb n $"note.png"); [intros [= <-]; repeat constructor|]. destruct (bytes_eqb n $"my.png"); [intros [= <-]; repeat constructor|discriminate].
  - repeat constructor.
  - cbn. repeat constructor; cbn; intuition discriminate.
  - repeat split. now left.
Qed.

(** Admonitions in delimited blocks never find data: what is missing in [C81_own_icon_partial]. *)
Theorem C81_delimited_refuted : ~ forall files s b k t, files_of_bytes files -> fits (at_place b) -> what b = Some k -> wants_data s ->
  parse files [(s, b)] [] = Ret t -> exists x, found t b = Some x.
Proof.
  intros H. destruct (H (fun _ => None) with_data (Block (Place 0 0) (Some Note) true None) Note []) as (x & E); try reflexivity.
  - intros n l. discriminate.
  - repeat split.
  - repeat split. now left.
  - discriminate E.
Qed.
Print Assumptions C81_delimited_refuted.

(** Nor do they with [icons] set to [image], although icons are images then (core/src/document_meta.rs:204). *)
Theorem C81_icons_image_refuted : ~ forall files b k t, files_of_bytes files -> fits (at_place b) -> what b = Some k -> delimited b = false ->
  parse files [(Settings (Some (VBool true)) (Some (VText $"image")) None None false, b)] [] = Ret t -> exists x, found t b = Some x.
Proof.
  intros H. destruct (H (fun _ => None) (Block (Place 0 0) (Some Note) false None) Note []) as (x & E); try reflexivity.
  - intros n l. discriminate.
  - repeat split.
  - discriminate E.
Qed.
Print Assumptions C81_icons_image_refuted.

(** An icon named with its extension is looked for with the extension twice: of [icon=my.png] nothing is shown, though the file is there. *)
Theorem C81_icon_with_extension_refuted : ~ forall files b k name l t, what b = Some k -> delimited b = false -> icon b = Some (name ++ $".png") ->
  files (name ++ $".png") = Some l -> parse files [(with_data, b)] [] = Ret t -> found t b = Some ($"data:image/png;base64," ++ rfc_encode l).
Proof.
  intros H. specialize (H some_files (Block (Place 0 0) (Some Note) false (Some $"my.png")) Note $"my" [77] _ eq_refl eq_refl eq_refl eq_refl eq_refl). vm_compute in H. discriminate.
Qed.
Print Assumptions C81_icon_with_extension_refuted.

(** A file that cannot be read gives an image without data. *)
Theorem C81_missing_file : forall files s b k, files_of_bytes files -> fits (at_place b) -> what b = Some k -> delimited b = false -> wants_data s -> (forall n, files n = None) ->
  exists t ext, parse files [(s, b)] [] = Ret t /\ image_type s ext /\ found t b = Some ($"data:image/" ++ media_type ext ++ $";base64,").
Proof.
  intros files s b k F FT W D S N. destruct (C81_own_icon_partial files [(s, b)] F) as (t & P & R); [constructor; [exact FT|constructor]|constructor; [intros []|constructor]|].
  specialize (R s b (or_introl eq_refl)). unfold right_icon in R. rewrite W in R. destruct R as (R & _). destruct (R D S) as (x & E & ext & I & ->).
  exists t, ext. split; [exact P|]. split; [exact I|]. rewrite E, N. now rewrite !app_nil_r.
Qed.
Print Assumptions C81_missing_file.
