(** Property C36: base64 encoding of embedded images. *)
From Verif Require Import Base Base64Model Base64Spec Base64Proofs.
Open Scope N_scope.

Theorem C36_encode_is_rfc4648 :
  forall l, Forall (fun x => x < 256) l -> encode l = Ret (rfc_encode l).
Proof. exact encode_rfc. Qed.
Print Assumptions C36_encode_is_rfc4648.

Theorem C36_decode_encode :
  forall l, Forall (fun x => x < 256) l -> exists t, encode l = Ret t /\ rfc_decode t = Some l.
Proof. exact (fun l H => ex_intro _ (rfc_encode l) (conj (encode_rfc l H) (decode_rfc l H))). Qed.
Print Assumptions C36_decode_encode.

Theorem C36_length_and_alphabet :
  forall l t, Forall (fun x => x < 256) l -> encode l = Ret t ->
    N.of_nat (length t) = 4 * ((N.of_nat (length l) + 2) / 3) /\
    (forall c, In c t -> In c ($"ABCDEFGHIJKLMNOPQRSTUVWXYZabcdefghijklmnopqrstuvwxyz0123456789+/") \/ c = "="%char).
Proof.
  intros l t F E. rewrite (encode_rfc l F) in E. injection E as <-.
  exact (conj (rfc_length l) (fun c => rfc_alphabet l c F)).
Qed.
Print Assumptions C36_length_and_alphabet.

Example C36_nonvacuous :
  Forall (fun x => x < 256) [0; 255; 128; 65] /\ encode [0; 255; 128; 65] = Ret ($"AP+AQQ==").
Proof. split; [repeat constructor; reflexivity|vm_compute; reflexivity]. Qed.
