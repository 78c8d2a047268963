From Verif Require Import Base SectionIdModel SectionIdSpec.
From Coq Require Import NArith Decimal DecimalString DecimalNat FinFun.

Lemma text_eqb_spec x y : text_eqb x y = true <-> x = y.
Proof. unfold text_eqb. destruct (list_eq_dec N.eq_dec x y); intuition discriminate. Qed.
Lemma used_spec used id : used_id used id = true <-> In id used.
Proof.
  unfold used_id. rewrite existsb_exists. split; [intros (x & I & E); apply text_eqb_spec in E; subst; exact I|].
  intro I. exists id. split; [exact I|]. apply text_eqb_spec. reflexivity.
Qed.
Lemma not_used used id : used_id used id = false <-> ~ In id used.
Proof. rewrite <- used_spec. destruct (used_id used id); intuition congruence. Qed.

(** ** decimal numbers *)
Definition dstep (a d : N) : N := (10 * a + (d - 48))%N.
Lemma string_digits d : forall acc, fold_left dstep (map N_of_ascii (list_ascii_of_string (NilEmpty.string_of_uint d))) (N.of_nat acc) = N.of_nat (Nat.of_uint_acc d acc)
  /\ Forall (fun d => (48 <= d <= 57)%N) (map N_of_ascii (list_ascii_of_string (NilEmpty.string_of_uint d))).
Proof.
  induction d; intro acc; cbn [NilEmpty.string_of_uint list_ascii_of_string map fold_left Nat.of_uint_acc]; [split; [reflexivity|constructor]|..].
  all: rewrite Nat.tail_mul_spec.
  all: match goal with |- context [Nat.of_uint_acc ?d ?x] => destruct (IHd x) as [E F]; split;
    [rewrite <- E; f_equal; unfold dstep; match goal with |- context [N_of_ascii ?c] => let v := eval vm_compute in (N_of_ascii c) in change (N_of_ascii c) with v end; lia|constructor; [match goal with |- context [N_of_ascii ?c] => let v := eval vm_compute in (N_of_ascii c) in change (N_of_ascii c) with v end; lia|exact F]] end.
Qed.
Lemma numeral_digits n : digits_of n (numeral n).
Proof.
  unfold digits_of, numeral, dec, b. pose proof (Unsigned.of_to n) as OT. destruct (Nat.to_uint n) as [|d|d|d|d|d|d|d|d|d|d] eqn:E.
  1: { cbn in OT. subst n. split; [discriminate|]. split; [constructor; [cbn; lia|constructor]|reflexivity]. }
  all: cbn [NilZero.string_of_uint]; match goal with |- context [NilEmpty.string_of_uint ?d] => destruct (string_digits d 0) as [V F] end;
    split; [discriminate|split; [exact F|]]; change (fun a d0 : N => (10 * a + (d0 - 48))%N) with dstep; change 0%N with (N.of_nat 0); rewrite V; f_equal; exact OT.
Qed.
Lemma numeral_inj n m : numeral n = numeral m -> n = m.
Proof. intro E. pose proof (numeral_digits n) as (_ & _ & A). pose proof (numeral_digits m) as (_ & _ & C). rewrite E in A. lia. Qed.
Lemma numbered_inj base sep n m : numbered base sep n = numbered base sep m -> n = m.
Proof. unfold numbered. intro E. apply app_inv_head, app_inv_head in E. apply numeral_inj, E. Qed.

(** ** the numbers *)
Lemma sequence_spec used base sep fuel : forall i, match sequence used base sep fuel i with
  | Some r => exists n, i <= n /\ r = numbered base sep n /\ ~ In r used /\ forall m, i <= m < n -> In (numbered base sep m) used
  | None => forall m, i <= m < i + fuel -> In (numbered base sep m) used end.
Proof.
  induction fuel as [|f IH]; intro i; cbn [sequence]; [intros; lia|].
  destruct (used_id used (base ++ sep_text sep ++ numeral i)) eqn:U.
  - apply used_spec in U. specialize (IH (S i)). destruct (sequence used base sep f (S i)) as [r|].
    + destruct IH as (n & L & E & N & A). exists n. split; [lia|]. split; [exact E|]. split; [exact N|].
      intros m M. destruct (Nat.eq_dec m i) as [->|]; [exact U|apply A; lia].
    + intros m M. destruct (Nat.eq_dec m i) as [->|]; [exact U|apply IH; lia].
  - apply not_used in U. exists i. split; [lia|]. split; [reflexivity|]. split; [exact U|]. intros; lia.
Qed.
Lemma sequence_sectid_spec used base sep : exists n, sequence_sectid used base sep = Some (numbered base sep n) /\ 2 <= n /\
  ~ In (numbered base sep n) used /\ forall m, 2 <= m < n -> In (numbered base sep m) used.
Proof.
  unfold sequence_sectid. pose proof (sequence_spec used base sep (S (length used)) 2) as S0.
  destruct (sequence used base sep (S (length used)) 2) as [r|].
  - destruct S0 as (n & L & -> & N & A). eauto.
  - exfalso. assert (ND : NoDup (map (numbered base sep) (seq 2 (S (length used))))).
    { apply Injective_map_NoDup; [intros x y; apply numbered_inj|apply seq_NoDup]. }
    apply NoDup_incl_length with (l' := used) in ND.
    + rewrite map_length, seq_length in ND. lia.
    + intros x I. apply in_map_iff in I as (m & <- & I). apply in_seq in I. apply S0. exact I.
Qed.

(** ** rounds *)
Lemma no_again U sep ne ni : forall cs tag last id, let n := length cs in
  match scan U sep ne ni tag last id cs with Done _ _ => True | AgainWithoutIds => ni = false | AgainWithoutEntities => ne = false end.
Proof.
  intros cs. remember (length cs) as n eqn:L. revert cs L. induction n as [n IH] using (well_founded_induction Wf_nat.lt_wf). intros cs L tag last id. cbn zeta.
  destruct cs as [|c r]; [exact I|]. cbn [length] in L.
  assert (R : forall tag last id, match scan U sep ne ni tag last id r with Done _ _ => True | AgainWithoutIds => ni = false | AgainWithoutEntities => ne = false end)
    by (intros; apply (IH (length r)); [lia|reflexivity]).
  cbn [scan]. destruct (N.eqb c 60 && head_is r 60).
  { destruct r as [|d r']; [exact I|]. cbn [length] in L. apply (IH (length r')); [lia|reflexivity]. }
  repeat match goal with |- match (if ?b then _ else _) with _ => _ end => destruct b eqn:?; try apply R end.
  - destruct sep as [s|]; [destruct (N.eqb s last)|]; apply R.
  - destruct ni; [|reflexivity]. rewrite andb_false_r in *. discriminate.
  - destruct ne; [|reflexivity]. rewrite andb_false_r in *. discriminate.
Qed.
Lemma characters_some U prefix sep line : exists id last, characters U prefix sep 3 false false line = Some (id, last).
Proof.
  assert (R1 : forall l, exists id last, characters U prefix sep 1 true true l = Some (id, last)).
  { intro l. cbn [characters]. pose proof (no_again U sep true true l false (List.last prefix 0%N) prefix) as N0.
    destruct (scan U sep true true false (List.last prefix 0%N) prefix l); eauto; discriminate. }
  assert (R2 : forall l e i, e || i = true -> exists id last, characters U prefix sep 2 e i l = Some (id, last)).
  { intros l e i EI. cbn [characters]. pose proof (no_again U sep e i l false (List.last prefix 0%N) prefix) as N0.
    destruct (scan U sep e i false (List.last prefix 0%N) prefix l); eauto; cbn zeta in N0; subst.
    - rewrite orb_false_r in EI. subst. apply R1.
    - cbn in EI. subst. apply R1. }
  change (characters U prefix sep 3 false false line) with
    (match scan U sep false false false (List.last prefix 0%N) prefix line with
      | Done id last => Some (id, last)
      | AgainWithoutIds => characters U prefix sep 2 false true (remove_matches aux_id 0 line)
      | AgainWithoutEntities => characters U prefix sep 2 true false (remove_matches (entity U) 0 line) end).
  destruct (scan U sep false false false (List.last prefix 0%N) prefix line); eauto.
Qed.

(** ** the result *)
Lemma finish_spec prefix sep id last :
  (prefix = [] /\ exists s, sep = Some s /\ (128 <= s)%N /\ forall used, finish used prefix sep id last = Panic) \/
  exists base plain, (base <> [] -> plain = true) /\ forall used, exists r, finish used prefix sep id last = Ret (Some r) /\ first_unused used base sep plain r.
Proof.
  unfold finish. set (id1 := if same_char sep last then removelast id else id).
  assert (NUM : forall used base plain, (plain = true -> In base used) -> exists r, Ret (sequence_sectid used base sep) = Ret (Some r) /\ first_unused used base sep plain r).
  { intros used base plain H. destruct (sequence_sectid_spec used base sep) as (n & -> & L & N & A). eexists. split; [reflexivity|]. right. split; [exact H|]. exists n. auto. }
  assert (MAIN : forall base used, exists r, Ret (if used_id used base then sequence_sectid used base sep else Some base) = Ret (Some r) /\ first_unused used base sep true r).
  { intros base used. destruct (used_id used base) eqn:UI.
    - apply used_spec in UI. apply NUM. auto.
    - apply not_used in UI. exists base. split; [reflexivity|]. left. auto. }
  destruct sep as [s|].
  - destruct id1 as [|c id1'] eqn:E1.
    + right. exists [], false. split; [congruence|]. intro used. apply NUM. discriminate.
    + destruct (match prefix with [] => head_is (c :: id1') s | _ => false end) eqn:ST; cbn [andb].
      * destruct prefix; [|discriminate]. cbn [andb]. destruct (128 <=? s)%N eqn:W.
        -- left. split; [reflexivity|]. exists s. split; [reflexivity|]. split; [apply N.leb_le, W|]. reflexivity.
        -- right. cbn [tl]. exists id1', true. auto.
      * right. exists (c :: id1'), true. split; [reflexivity|]. intro used. apply MAIN.
  - right. exists id1, true. split; [reflexivity|]. intro used. replace (match prefix with [] => false | _ => false end) with false by (destruct prefix; reflexivity). apply MAIN.
Qed.
Lemma autogen_spec U prefix sep line :
  (prefix = [] /\ exists s, sep = Some s /\ (128 <= s)%N /\ forall used, autogen_sect_id U used prefix sep line = Panic) \/
  exists base plain, (base <> [] -> plain = true) /\ forall used, exists r, autogen_sect_id U used prefix sep line = Ret (Some r) /\ first_unused used base sep plain r.
Proof. unfold autogen_sect_id. destruct (characters_some U prefix sep line) as (id & last & ->). apply finish_spec. Qed.
Lemma first_unused_fresh used base sep plain id : first_unused used base sep plain id -> ~ In id used.
Proof. intros [(_ & N & ->)|(_ & n & _ & _ & N & _)]; exact N. Qed.

(** ** titles made of words *)
Lemma gap_spec c : gap_char c = true <-> gap c.
Proof.
  unfold gap_char, gap. rewrite existsb_exists. split; [intros (x & I & E); apply N.eqb_eq in E; subst; exact I|intro I; exists c; split; [exact I|apply N.eqb_refl]].
Qed.
Lemma gap_false c : ~ gap c -> gap_char c = false.
Proof. intro N. destruct (gap_char c) eqn:E; [apply gap_spec in E; contradiction|reflexivity]. Qed.
Lemma plain_step U sep c : ~ special c -> forall last id r, scan U sep false false false last id (c :: r) =
  if gap_char c then match sep with Some s => if N.eqb s last then scan U sep false false false last id r else scan U sep false false false s (id ++ [s]) r
                     | None => scan U sep false false false last id r end
  else if ascii_alnum c then scan U sep false false false (ascii_lower c) (id ++ [ascii_lower c]) r
  else if (128 <=? c)%N && alphanumeric U c then scan U sep false false false (List.last (to_lower U c) last) (id ++ to_lower U c) r
  else scan U sep false false false last id r.
Proof.
  intros NS last id r. cbn [scan].
  assert (E : forall x, In x [60; 62; 91; 38]%N -> N.eqb c x = false) by (intros x I; apply N.eqb_neq; intros ->; apply NS, I).
  rewrite !E by (cbn; tauto). reflexivity.
Qed.
Lemma last_app (x y : text) d : List.last (x ++ y) d = List.last y (List.last x d).
Proof.
  induction x as [|c x IH]; [reflexivity|]. destruct x as [|e x].
  - cbn [app]. destruct y as [|f y]; [reflexivity|]. cbn [List.last]. clear. revert f. induction y as [|g y IHy]; intro f; [reflexivity|]. apply IHy.
  - exact IH.
Qed.
Lemma alnum_not_special c : ascii_alnum c = true -> ~ special c /\ gap_char c = false.
Proof.
  intro A. split.
  - intro I. unfold special in I. cbn in I. destruct I as [<-|[<-|[<-|[<-|[]]]]]; discriminate A.
  - apply gap_false. intro I. unfold gap in I. cbn in I. destruct I as [<-|[<-|[<-|[<-|[<-|[]]]]]]; discriminate A.
Qed.
Lemma high_not_special c : (128 <= c)%N -> ~ special c /\ gap_char c = false /\ ascii_alnum c = false.
Proof.
  intro A. split; [|split].
  - intro I. unfold special in I. cbn in I. intuition lia.
  - apply gap_false. intro I. unfold gap in I. cbn in I. intuition lia.
  - unfold ascii_alnum, ascii_letter, ascii_digit, in_range.
    repeat match goal with |- context [(?a <=? ?b)%N] => destruct (N.leb_spec a b); try lia end; reflexivity.
Qed.
Lemma scan_dropped U sep c last id r : dropped U c -> scan U sep false false false last id (c :: r) = scan U sep false false false last id r.
Proof.
  intros (NG & NS & NA & NH). rewrite plain_step, gap_false, NA by assumption. destruct (N.leb_spec 128 c); [|reflexivity]. rewrite NH by assumption. reflexivity.
Qed.
Lemma scan_word U sep w t : word_of U w t -> forall last id r, scan U sep false false false last id (w ++ r) = scan U sep false false false (List.last t last) (id ++ t) r.
Proof.
  induction 1 as [|c k w t K W IH|c w t D W IH]; intros last id r; cbn [app].
  - rewrite app_nil_r. reflexivity.
  - assert (E : scan U sep false false false last id (c :: w ++ r) = scan U sep false false false (List.last k last) (id ++ k) (w ++ r)).
    { destruct K as [c A|c L A].
      - destruct (alnum_not_special c A) as [NS G]. rewrite plain_step, G, A by exact NS. reflexivity.
      - destruct (high_not_special c L) as (NS & G & NA). rewrite plain_step, G, NA, A by exact NS. destruct (N.leb_spec 128 c); [reflexivity|lia]. }
    change ((c :: w) ++ r) with (c :: w ++ r). rewrite E, IH, last_app, app_assoc. reflexivity.
  - change ((c :: w) ++ r) with (c :: w ++ r). rewrite scan_dropped by exact D. apply IH.
Qed.
Definition after_gap (sep : option N) (last : N) : N := match sep with Some s => s | None => last end.
Lemma scan_gap_done U sep g : Forall (fun c => gap c \/ dropped U c) g -> forall id r last, same_char sep last = true \/ sep = None ->
  scan U sep false false false last id (g ++ r) = scan U sep false false false last id r.
Proof.
  induction 1 as [|c g H F IH]; intros id r last E; [reflexivity|]. change ((c :: g) ++ r) with (c :: g ++ r). destruct H as [G|D].
  - rewrite plain_step by (unfold gap, special in *; cbn in *; intuition (subst; discriminate)). rewrite (proj2 (gap_spec c) G).
    destruct sep as [s|]; [|apply IH, E]. destruct E as [E|]; [|discriminate]. cbn in E. rewrite E. apply IH. left. exact E.
  - rewrite scan_dropped by exact D. apply IH, E.
Qed.
Lemma scan_gap U sep g : gap_text U g -> forall id r last, same_char sep last = false ->
  scan U sep false false false last id (g ++ r) = scan U sep false false false (after_gap sep last) (id ++ sep_text sep) r.
Proof.
  intros [F X]. induction X as [c g G|c g X IH]; intros id r last E; inversion F as [|? ? H F']; subst; change ((c :: g) ++ r) with (c :: g ++ r).
  - rewrite plain_step by (unfold gap, special in *; cbn in *; intuition (subst; discriminate)). rewrite (proj2 (gap_spec c) G).
    destruct sep as [s|]; cbn [sep_text after_gap].
    + cbn in E. rewrite E. apply scan_gap_done; [exact F'|]. left. apply N.eqb_refl.
    + rewrite app_nil_r. apply scan_gap_done; auto.
  - destruct H as [G|D].
    + rewrite plain_step by (unfold gap, special in *; cbn in *; intuition (subst; discriminate)). rewrite (proj2 (gap_spec c) G).
      destruct sep as [s|]; cbn [sep_text after_gap].
      * cbn in E. rewrite E. apply scan_gap_done; [exact F'|]. left. apply N.eqb_refl.
      * rewrite app_nil_r. apply scan_gap_done; auto.
    + rewrite scan_dropped by exact D. apply IH; assumption.
Qed.
Lemma last_In (t : text) d : t <> [] -> In (List.last t d) t.
Proof. intro N. destruct (exists_last N) as (p & x & ->). rewrite last_app. cbn. apply in_or_app. right. left. reflexivity. Qed.
Lemma same_not sep t d : t <> [] -> (forall s, sep = Some s -> ~ In s t) -> same_char sep (List.last t d) = false.
Proof.
  intros NE N. destruct sep as [s|]; [|reflexivity]. cbn. apply N.eqb_neq. intros ->. exact (N _ eq_refl (last_In t d NE)).
Qed.
Lemma scan_words U sep line ts : words_of U line ts -> (forall s t, sep = Some s -> In t ts -> ~ In s t) -> forall last id,
  exists last', (scan U sep false false false last id line = Done (id ++ joined sep ts) last' /\ same_char sep last' = false) \/
    (scan U sep false false false last id line = Done (id ++ joined sep ts ++ sep_text sep) last' /\ same_char sep last' = true).
Proof.
  induction 1 as [w t W NE|w t g W NE G|w t g r ts W NE G WS IH]; intros NS last id.
  - assert (E : same_char sep (List.last t last) = false) by (apply same_not; [exact NE|intros s ES; apply (NS s t ES); left; reflexivity]).
    exists (List.last t last). left. split; [|exact E]. rewrite <- (app_nil_r w), (scan_word U sep w t W). reflexivity.
  - assert (E : same_char sep (List.last t last) = false) by (apply same_not; [exact NE|intros s ES; apply (NS s t ES); left; reflexivity]).
    rewrite (scan_word U sep w t W), <- (app_nil_r g), (scan_gap U sep g G _ _ _ E). cbn [joined scan].
    destruct sep as [s|]; cbn [after_gap sep_text].
    + exists s. right. split; [rewrite app_assoc; reflexivity|apply N.eqb_refl].
    + exists (List.last t last). left. rewrite app_nil_r. auto.
  - assert (E : same_char sep (List.last t last) = false) by (apply same_not; [exact NE|intros s ES; apply (NS s t ES); left; reflexivity]).
    rewrite (scan_word U sep w t W), (scan_gap U sep g G _ _ _ E).
    destruct (IH (fun s t' ES I => NS s t' ES (or_intror I)) (after_gap sep (List.last t last)) ((id ++ t) ++ sep_text sep)) as (l' & H).
    exists l'. replace (joined sep (t :: ts)) with (t ++ sep_text sep ++ joined sep ts) by (destruct ts; [inversion WS|reflexivity]).
    rewrite <- !app_assoc in *. exact H.
Qed.
Lemma joined_ne U line ts sep : words_of U line ts -> exists t r, joined sep ts = t ++ r /\ t <> [] /\ In t ts.
Proof.
  intro W. destruct W as [w t W NE|w t g W NE G|w t g r ts W NE G WS]; exists t; cbn [joined].
  - exists []. rewrite app_nil_r. cbn. auto.
  - exists []. rewrite app_nil_r. cbn. auto.
  - destruct ts; [inversion WS|]. eexists. split; [reflexivity|]. cbn. auto.
Qed.
Theorem words_id U prefix sep line ts : words_of U line ts -> (forall s t, sep = Some s -> In t ts -> ~ In s t) ->
  forall used, exists id, autogen_sect_id U used prefix sep line = Ret (Some id) /\ first_unused used (prefix ++ joined sep ts) sep true id.
Proof.
  intros W NS used. unfold autogen_sect_id. cbn [characters].
  destruct (joined_ne U line ts sep W) as (t & jr & J & TN & TI).
  assert (F : exists last id, scan U sep false false false (List.last prefix 0%N) prefix line = Done id last /\
    (if same_char sep last then removelast id else id) = prefix ++ joined sep ts).
  { destruct (scan_words U sep line ts W NS (List.last prefix 0%N) prefix) as (l & [[E S0]|[E S0]]); exists l; eexists; (split; [exact E|]); rewrite S0; [reflexivity|].
    destruct sep as [s|]; [|discriminate]. cbn [sep_text]. rewrite app_assoc, removelast_last. reflexivity. }
  destruct F as (last & id & -> & E). unfold finish. rewrite E. set (base := prefix ++ joined sep ts).
  assert (NEB : base <> []) by (unfold base; rewrite J; destruct t; [congruence|destruct prefix; discriminate]).
  assert (ST : match prefix, sep with [], Some s => head_is base s | _, _ => false end = false).
  { destruct prefix; [|reflexivity]. destruct sep as [s|]; [|reflexivity]. unfold base. cbn [app]. rewrite J. destruct t as [|c t]; [congruence|]. cbn.
    apply N.eqb_neq. intros ->. apply (NS c (c :: t) eq_refl TI). left. reflexivity. }
  rewrite ST. cbn [andb].
  assert (MAIN : exists r, Ret (if used_id used base then sequence_sectid used base sep else Some base) = Ret (Some r) /\ first_unused used base sep true r).
  { destruct (used_id used base) eqn:UI.
    - apply used_spec in UI. destruct (sequence_sectid_spec used base sep) as (n & -> & L & N & A). eexists. split; [reflexivity|]. right. split; [auto|]. exists n. auto.
    - apply not_used in UI. exists base. split; [reflexivity|]. left. auto. }
  destruct sep as [s|]; [|exact MAIN]. destruct base; [congruence|exact MAIN].
Qed.

(** ** Tags in titles *)
Lemma special_off c : ~ special c -> N.eqb c 60 = false /\ N.eqb c 62 = false /\ N.eqb c 91 = false /\ N.eqb c 38 = false.
Proof. intros NS. repeat split; apply N.eqb_neq; intros ->; apply NS; cbn; tauto. Qed.
Lemma scan_tag U sep no_ent no_ids tag : Forall (fun c => ~ special c /\ ~ gap c) tag -> forall last id r,
  scan U sep no_ent no_ids true last id (tag ++ 62%N :: r) = scan U sep no_ent no_ids false last id r.
Proof.
  induction 1 as [|c tag [NS NG] F IH]; intros last id r; [reflexivity|]. change ((c :: tag) ++ 62%N :: r) with (c :: tag ++ 62%N :: r). cbn [scan].
  destruct (special_off c NS) as (E1 & E2 & E3 & E4). rewrite E1, E2, E3, E4. cbn [andb].
  destruct (gap_char c) eqn:G; [exfalso; apply NG, gap_spec, G|]. apply IH.
Qed.
Lemma scan_with_tags U sep title plain : with_tags title plain -> forall last id, scan U sep false false false last id title = scan U sep false false false last id plain.
Proof.
  induction 1 as [|c title plain NS W IH|tag title plain F W IH]; intros last id; [reflexivity| |].
  - rewrite !plain_step by assumption. destruct (gap_char c); [destruct sep as [s|]; [destruct (N.eqb s last)|] |destruct (ascii_alnum c); [|destruct (_ && _)]]; apply IH.
  - cbn [scan]. replace (head_is (tag ++ 62%N :: title) 60) with false.
    + cbn [N.eqb Pos.eqb andb]. rewrite scan_tag by assumption. apply IH.
    + destruct F as [|c tag [NS _] F]; [reflexivity|]. destruct (special_off c NS) as (E1 & _). unfold head_is. cbn [app]. rewrite N.eqb_sym in E1. rewrite ?E1. symmetry. first [exact E1|reflexivity].
Qed.
Lemma scan_with_tags_done U sep title plain : with_tags title plain -> forall last id, exists i l, scan U sep false false false last id plain = Done i l.
Proof.
  induction 1 as [|c title plain NS W IH|tag title plain F W IH]; intros last id; [cbn; eauto| |apply IH].
  rewrite plain_step by assumption. destruct (gap_char c); [destruct sep as [s|]; [destruct (N.eqb s last)|] |destruct (ascii_alnum c); [|destruct (_ && _)]]; apply IH.
Qed.
