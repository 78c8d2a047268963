(** C25: callout numbers match their list items. *)
From Verif Require Import Base Text CalloutsModel CalloutsSpec CalloutsProofs.
From Coq Require Import Lia.

(** For every document of scopes, the first of which has a callout, whose numbers fit a byte: the callouts and the lists come out right:
    the numbers are those of [numbers], the items get exactly the callouts of the scope before them that bear their number, and the errors
    are reported exactly when an item is out of sequence and when no callout bears its number ([right], CalloutsSpec.v). *)
Theorem C25_scopes (ss : list scope) : match ss with [] => True | s :: _ => pushes s <> [] end ->
  Forall scope_ok ss -> length ss <= 255 ->
  exists outs, run [] (flat_map events_of ss) = Ret outs /\ right 0 ss outs.
Proof. intros H1 H2 H3. apply scopes_ok; auto. now right. Qed.
Print Assumptions C25_scopes.

(** The same when callouts follow behind the last list. *)
Theorem C25_last_callouts (ss : list scope) (ps : list (option nat * bool)) : match ss with [] => True | s :: _ => pushes s <> [] end ->
  Forall scope_ok (ss ++ [Scope ps []]) -> length ss <= 254 -> ps <> [] ->
  exists outs, run [] (flat_map events_of ss ++ map (fun p => Push (fst p) (snd p)) ps) = Ret (outs ++ map OCallout (scope_callouts (length ss) ps)) /\ right 0 ss outs.
Proof.
  intros H1 H2 H3 H4.
  assert (K : forall ss k st, state_of k [] st -> (k = 0 -> match ss with [] => True | s :: _ => pushes s <> [] end) ->
    Forall scope_ok (ss ++ [Scope ps []]) -> k + length ss <= 254 ->
    exists outs, run st (flat_map events_of ss ++ map (fun p => Push (fst p) (snd p)) ps) = Ret (outs ++ map OCallout (scope_callouts (k + length ss) ps)) /\ right k ss outs).
  { clear ss H1 H2 H3. induction ss as [|s ss IH]; intros k st HS Hk Hok HN.
    - cbn [flat_map app length] in *. inversion Hok as [|? ? (W1 & _ & F1 & L1 & _) _]; subst. cbn [pushes] in *.
      destruct (pushes_ok k ps [] st [] 0 HS eq_refl (Forall_nil _) (fun _ => Forall_nil _) W1 F1 L1) as (st' & _ & HR).
      rewrite app_nil_r in HR. rewrite HR. cbn [run]. rewrite app_nil_r, Nat.add_0_r. exists []. split; [reflexivity|constructor].
    - inversion Hok as [|? ? (W1 & W2 & F1 & L1 & F2) Hok']; subst. cbn [length] in HN.
      cbn [flat_map]. unfold events_of at 1. rewrite <- !app_assoc.
      destruct (pushes_ok k (pushes s) [] st ([CList (items s)] ++ flat_map events_of ss ++ map (fun p => Push (fst p) (snd p)) ps) 0 HS eq_refl (Forall_nil _) (fun _ => Forall_nil _) W1 F1 L1) as (st' & HS' & HR).
      rewrite HR. clear HR. cbn [app length] in *. fold (scope_callouts k (pushes s)) in *.
      destruct (items_ok k _ st' 0 (items s) HS' (numbers_pos 0 _ W2) F2) as (its & EI & RI).
      cbn [run]. rewrite EI.
      assert (HC : k = 0 -> scope_callouts k (pushes s) <> []).
      { intros E. specialize (Hk E). intro H. apply (f_equal (@length _)) in H. unfold scope_callouts in H. rewrite from_length in H. destruct (pushes s) as [|[? ?] ?]; easy. }
      rewrite (advance_ok k _ st' HS' HC ltac:(lia) (from_last k 0 _)).
      assert (HS2 : state_of (S k) [] [Callout (S k) 0 0 false]) by now left.
      destruct (IH (S k) [Callout (S k) 0 0 false] HS2 ltac:(discriminate) Hok' ltac:(lia)) as (outs & -> & R).
      exists (map OCallout (scope_callouts k (pushes s)) ++ OList its :: outs). split; [|constructor; assumption].
      replace (k + S (length ss)) with (S k + length ss) by lia. cbn [app]. repeat rewrite <- app_assoc. cbn [app]. reflexivity. }
  apply (K ss 0 []); auto. now right.
Qed.
Print Assumptions C25_last_callouts.

(** Numbers that are not written are consecutive, from 1 in each scope. *)
Theorem C25_consecutive k n (xs : list bool) : length xs = n ->
  map number (scope_callouts k (map (fun x => (None, x)) xs)) = seq 1 n /\ map callout_idx (scope_callouts k (map (fun x => (None, x)) xs)) = seq 0 n /\
  Forall (fun c => list_idx c = k) (scope_callouts k (map (fun x => (None, x)) xs)).
Proof.
  intros <-. unfold scope_callouts. rewrite !map_map. cbn [fst snd]. rewrite map_id.
  replace (map (fun _ : bool => @None nat) xs) with (repeat (@None nat) (length xs)) by (induction xs; cbn; congruence).
  rewrite numbers_auto. apply from_auto.
Qed.
Print Assumptions C25_consecutive.

(** No two callouts of a document have the same identity: the pair that is the id of the callout in the output. *)
Theorem C25_identities k ss outs : right k ss outs -> NoDup (map callout_id (callouts_in outs)).
Proof. intro H. now apply right_ids in H. Qed.
Print Assumptions C25_identities.

(** The callouts of an item: a callout is among them if and only if it is in the scope and bears the number. *)
Theorem C25_item n cs out c : bearing n cs out -> (In c out <-> In c cs /\ number c = n).
Proof. apply bearing_in. Qed.
Print Assumptions C25_item.

(** A list before any callout: every item is reported, and the callouts behind it are numbered as if it were not there. *)
Theorem C25_list_first (ns : list (option nat)) (rest : list event) : Forall (fun n => n <= 254) (numbers 0 ns) -> written_ok ns ->
  exists its, items_right [] 0 (numbers 0 ns) its /\ Forall (fun o => not_found o = true /\ callouts_of o = []) its /\
  run [] (CList ns :: rest) = match run [] rest with Ret outs => Ret (OList its :: outs) | Panic => Panic end.
Proof.
  intros F W. destruct (items_ok 0 [] [] 0 ns (or_intror (conj eq_refl eq_refl)) (numbers_pos 0 ns W) F) as (its & E & R).
  exists its. split; [exact R|]. split; [|cbn [run]; rewrite E; reflexivity].
  clear E F W. revert its R. generalize (numbers 0 ns). generalize 0. intros bf l. revert bf.
  induction l as [|n l IH]; intros bf [|o its] R; try easy. cbn in R. destruct R as [(_ & B & _ & NF) R].
  constructor; [|apply (IH n _ R)]. split; [apply NF; now intros [c [[] _]]|]. inversion B. reflexivity.
Qed.
Print Assumptions C25_list_first.

(** The number of a callout is the numeral between its marks, if it is at most 255. *)
Theorem C25_number_read ds lexeme : written_callout ds lexeme -> ds <> [] -> Forall Text.digit ds -> (Text.value ds < 256)%N ->
  parse_callout_num lexeme = Some (N.to_nat (Text.value ds)).
Proof. intros W N F L. rewrite (parse_num_digits ds lexeme W N F). apply N.ltb_lt in L. now rewrite L. Qed.
Print Assumptions C25_number_read.
Theorem C25_automatic_read lexeme : written_callout ($".") lexeme -> parse_callout_num lexeme = None.
Proof. intros [->| ->]; reflexivity. Qed.
Print Assumptions C25_automatic_read.

(** A document with two scopes, and callouts behind them. *)
Definition sample_scopes : list scope :=
  [Scope [(None, false); (None, true); (Some 2, false); (None, false)] [None; Some 2; Some 5];
   Scope [(Some 3, false); (None, false)] [Some 3; None]].
Example C25_sample_ok : match sample_scopes with [] => True | s :: _ => pushes s <> [] end /\ Forall scope_ok (sample_scopes ++ [Scope [(None, false)] []]).
Proof.
  split; [discriminate|]. repeat (apply Forall_cons; [|]); try apply Forall_nil;
    (repeat split; cbn; try lia; try (repeat constructor; try discriminate; lia)).
  all: intros front l E.
  all: apply (f_equal (@removelast nat)) in E; rewrite removelast_last in E; subst front; cbn; repeat constructor; lia.
Qed.
Example C25_sample : run [] (flat_map events_of sample_scopes ++ [Push None false]) =
  Ret [OCallout (Callout 0 0 1 false); OCallout (Callout 0 1 2 true); OCallout (Callout 0 2 2 false); OCallout (Callout 0 3 3 false);
       OList [ItemOut 1 [Callout 0 0 1 false] false false; ItemOut 2 [Callout 0 1 2 true; Callout 0 2 2 false] false false; ItemOut 5 [] true true];
       OCallout (Callout 1 0 3 false); OCallout (Callout 1 1 4 false);
       OList [ItemOut 3 [Callout 1 0 3 false] true false; ItemOut 4 [Callout 1 1 4 false] false false];
       OCallout (Callout 2 0 1 false)].
Proof. vm_compute; reflexivity. Qed.
Example C25_sample_number : parse_callout_num ($"<!--17-->") = Some 17 /\ written_callout ($"17") ($"<!--17-->").
Proof. split; [vm_compute; reflexivity|right; reflexivity]. Qed.

(** A callout written [<0>] shares its identity with the next one. *)
Theorem C25_zero_identity_refuted : exists x y, run [] [Push (Some 0) false; Push None false] = Ret [OCallout x; OCallout y] /\ x <> y /\ callout_id x = callout_id y.
Proof. eexists _, _. split; [vm_compute; reflexivity|]. split; [discriminate|reflexivity]. Qed.
Print Assumptions C25_zero_identity_refuted.
(** An item [<0>] behind the first list is given a callout that is nowhere in the document. *)
Theorem C25_zero_item_refuted : exists outs c, run [] [Push None false; CList [None]; CList [Some 0]] = Ret (outs ++ [OList [ItemOut 0 [c] true false]]) /\ ~ In (OCallout c) outs.
Proof. eexists [_; _], _. split; [vm_compute; reflexivity|]. cbn. intros [H|[H|[]]]; discriminate. Qed.
Print Assumptions C25_zero_item_refuted.
(** The program stops: at the 256th callout of a scope, at a callout behind number 255, at an item with number 255, at the 256th list. *)
Theorem C25_counters_overflow_refuted : run [] (repeat (Push None false) 256) = Panic /\ run [] [Push (Some 255) false; Push (Some 1) false] = Panic /\
  run [] [Push (Some 255) false; CList [Some 255]] = Panic /\ run [] (flat_map events_of (repeat (Scope [(None, false)] [None]) 256)) = Panic.
Proof. repeat split; vm_compute; reflexivity. Qed.
Print Assumptions C25_counters_overflow_refuted.
(** A number over 255 is taken for an automatic one. *)
Theorem C25_large_number_refuted ds lexeme : written_callout ds lexeme -> ds <> [] -> Forall Text.digit ds -> (256 <= Text.value ds)%N ->
  parse_callout_num lexeme = None.
Proof. intros W N F L. rewrite (parse_num_digits ds lexeme W N F). destruct (N.ltb_spec (Text.value ds) 256); [lia|reflexivity]. Qed.
Print Assumptions C25_large_number_refuted.
