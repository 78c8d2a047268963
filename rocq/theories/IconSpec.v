(** What C81 says: which image an admonition shows. *)
From Verif Require Import Base Base64Spec IconModel.
Import ListNotations.
Open Scope N_scope.

(** what the code's integers can hold: u16 sources, u32 places *)
Definition fits (p : place) : Prop := source p < 2 ^ 16 /\ start p < 2 ^ 32.
(** images are to be put into the document as data, and icons are images *)
Definition wants_data (s : settings) : Prop :=
  data_uri s = Some (VBool true) /\ icons s = Some (VBool true) /\ (iconsdir_is_uri s = false \/ allow_uri_read s = Some (VBool true)).
(** files hold bytes *)
Definition files_of_bytes (files : bytes -> option (list N)) : Prop := forall n l, files n = Some l -> Forall (fun x => x < 256) l.
(** the kind of image: what [icontype] says, and otherwise png *)
Definition image_type (s : settings) (x : bytes) : Prop :=
  match icontype s with Some (VText (c :: r)) => x = c :: r | _ => x = $"png" end.
Definition media_type (x : bytes) : bytes := if bytes_eqb x $"svg" then $"svg+xml" else x.
(** the name of a kind *)
Definition kind_name (k : kind) : bytes :=
  match k with Tip => $"tip" | Caution => $"caution" | Important => $"important" | Note => $"note" | Warning => $"warning" end.
(** the data that belong to an admonition: its own icon, or the icon of its kind *)
Definition own_icon (files : bytes -> option (list N)) (s : settings) (k : kind) (custom : option bytes) (x : bytes) : Prop :=
  exists ext, image_type s ext /\
    x = $"data:image/" ++ media_type ext ++ $";base64," ++
        match files (match custom with Some c => c | None => kind_name k end ++ $"." ++ ext) with Some l => rfc_encode l | None => [] end.
(** what every block of a document should find *)
Definition right_icon (files : bytes -> option (list N)) (s : settings) (b : block) (o : option bytes) : Prop :=
  match what b with
  | Some k => (delimited b = false -> wants_data s -> exists x, o = Some x /\ own_icon files s k (icon b) x)
              /\ (delimited b = true \/ ~ wants_data s -> o = None)
  | None => o = None
  end.
