(** Property C125. *)
From Coq Require Import String.
From Coq Require Import List NArith ZArith Bool Lia ZifyBool ZifyNat ZifyN.
From Verif Require Import Base Text CodecModel CodecSpec CodecProofs ReceiptModel LayoutModel SectionModel SectionSpec SectionProofs
  StorageModel StorageSpec StorageProofs GlobalModel GlobalSpec GlobalProofs RuntimeModel RuntimeSpec RuntimeProofs RuntimeProps ObserveProofs OutcomeProofs.
From Verif Require GlobalProps.
From Verif Require Import AdminSpec AdminProofs.
Import ListNotations.
Open Scope list_scope.
Open Scope N_scope.

(** Outcomes of an account query when its record is whole. *)
Lemma sections_known e t g : typed e g -> array_wf 20 t -> gs_layer_param g = None ->
  cur e g (key_core t) <> None -> cur e g (key_noncore t) <> None -> exists l, fst (template_sections e t g) = Ok l.
Proof.
  intros HT Ht HP H1 H2. unfold template_sections, gbind.
  destruct (cur e g (key_core t)) as [x|] eqn:E1; [|now elim H1]. destruct (cur e g (key_noncore t)) as [y|] eqn:E2; [|now elim H2].
  destruct (typed_cur e g (TCore t) x HT (conj Ht I) E1) as (lx & Wx & Ex).
  destruct (typed_cur e g (TNon t) y HT (conj Ht I) E2) as (ly & Wy & Ey).
  rewrite (read_now_sections e (key_core t) g HP lx x Wx Ex E1). rewrite (read_now_sections e (key_noncore t) g HP ly y Wy Ey E2).
  eexists. reflexivity.
Qed.
Lemma sections_cases e t g : typed e g -> array_wf 20 t -> gs_layer_param g = None ->
  unknown_template e g t \/ laid_out e g t \/ shapeless e g t.
Proof.
  intros HT Ht HP. unfold unknown_template, laid_out, shapeless.
  assert (X : (exists l, fst (template_sections e t g) = Ok l) \/ fst (template_sections e t g) = Err GNotFound).
  { unfold template_sections, gbind.
    destruct (cur e g (key_core t)) as [x|] eqn:E1.
    - destruct (typed_cur e g (TCore t) x HT (conj Ht I) E1) as (lx & Wx & Ex). rewrite (read_now_sections e (key_core t) g HP lx x Wx Ex E1).
      destruct (cur e g (key_noncore t)) as [y|] eqn:E2.
      + destruct (typed_cur e g (TNon t) y HT (conj Ht I) E2) as (ly & Wy & Ey). rewrite (read_now_sections e (key_noncore t) g HP ly y Wy Ey E2). left. eexists. reflexivity.
      + rewrite (read_now_none e _ _ g HP E2). now right.
    - rewrite (read_now_none e _ _ g HP E1). now right. }
  destruct X as [[l El]|X]; [right|now left].
  destruct (get_section KData l) as [[| |[|lay r]| | | |]|] eqn:Ed.
  4:{ left. exists l, lay, r. auto. }
  all: right; exists l; split; [exact El|intros; congruence].
Qed.
Lemma layout_of_known e t g : laid_out e g t -> exists lay, template_layout e t g = (Ok lay, g).
Proof.
  intros (l & lay & r & E & D). exists lay. unfold template_layout, gbind. pose proof (reads_sections e t g) as RS.
  destruct (template_sections e t g) as [o g1]. cbn [fst snd] in *. subst. now rewrite D.
Qed.
Lemma layout_of_unknown e t g : unknown_template e g t -> template_layout e t g = (Err GNotFound, g).
Proof.
  intros E. unfold unknown_template in E. unfold template_layout, gbind. pose proof (reads_sections e t g) as RS.
  destruct (template_sections e t g) as [o g1]. cbn [fst snd] in *. now subst.
Qed.
Lemma layout_of_shapeless e t g : shapeless e g t -> template_layout e t g = (Panic, g).
Proof.
  intros (l & E & D). unfold template_layout, gbind. pose proof (reads_sections e t g) as RS.
  destruct (template_sections e t g) as [o g1]. cbn [fst snd] in *. subst.
  destruct (get_section KData l) as [[| |[|lay r]| | | |]|] eqn:Ed; try reflexivity. now elim (D lay r).
Qed.

Lemma from_read {A} (m : gm A) g o : reads m -> fst (m g) = o -> m g = (o, g).
Proof. intros H <-. specialize (H g). destruct (m g) as [x g1]. cbn in *. now subst. Qed.
Lemma reads_field_data {A} e a (f : account_data -> A) : reads (let! d := read_and_decode e dec_account_data (key_immutable a) in gret (f d)).
Proof. apply reads_bind; [apply reads_decode|intros; apply reads_ret]. Qed.
Lemma reads_field_mut {A} e a (f : account_mut -> A) : reads (let! d := read_and_decode e dec_account_mut (key_mutable a) in gret (f d)).
Proof. apply reads_bind; [apply reads_decode|intros; apply reads_ret]. Qed.
Lemma recorded_reads e g a name t b k : recorded e g a name t b k ->
  account_name e a g = (Ok name, g) /\ account_template e a g = (Ok t, g) /\ account_balance e a g = (Ok b, g) /\ account_counter e a g = (Ok k, g).
Proof.
  unfold recorded, fields_of. intros E. injection E as E1 E2 E3 E4.
  split; [|split; [|split]]; apply from_read; auto; first [apply reads_field_data|apply reads_field_mut].
Qed.
Lemma load_recorded e g a name t b k : recorded e g a name t b k ->
  account_load e a g = (let! lay := template_layout e t in gret (mkAccount a t lay)) g.
Proof.
  intros H. apply recorded_reads in H. destruct H as (_ & H & _). revert H. unfold account_template, account_load, gbind.
  pose proof (reads_decode e dec_account_data (key_immutable a) g) as R1.
  destruct (read_and_decode e dec_account_data (key_immutable a) g) as [[d|?|] g1]; try discriminate. cbn [snd] in R1. subst. intros [= <-]. reflexivity.
Qed.
Lemma load_absent e g a : absent e g a -> account_load e a g = (Err GNotFound, g).
Proof.
  unfold absent, fields_of. intros E. injection E as _ E _ _. revert E. unfold account_template, account_load, gbind.
  pose proof (reads_decode e dec_account_data (key_immutable a) g) as R1.
  destruct (read_and_decode e dec_account_data (key_immutable a) g) as [[d|?|] g1]; try discriminate. cbn [snd] in R1. subst. intros [= ->]. reflexivity.
Qed.
Lemma query_recorded e g a name t b k : typed e g -> gs_layer_param g = None -> array_wf 20 t -> recorded e g a name t b k ->
  (laid_out e g t /\ (exists lay, account_load e a g = (Ok (mkAccount a t lay), g)) /\ get_account e a g = (Ok (Some (b, k, t)), g))
  \/ (unknown_template e g t /\ account_load e a g = (Err GNotFound, g) /\ get_account e a g = (Ok None, g))
  \/ (shapeless e g t /\ account_load e a g = (Panic, g) /\ get_account e a g = (Panic, g)).
Proof.
  intros HT HP Ht HR. pose proof (load_recorded e g a name t b k HR) as HLd. pose proof (recorded_reads e g a name t b k HR) as (_ & H2 & H3 & H4).
  destruct (sections_cases e t g HT Ht HP) as [X|[X|X]].
  - right; left. split; [exact X|]. unfold gbind in HLd. rewrite (layout_of_unknown _ _ _ X) in HLd. split; [exact HLd|].
    unfold get_account, gbind. now rewrite HLd.
  - left. split; [exact X|]. destruct (layout_of_known _ _ _ X) as [lay E]. unfold gbind in HLd. rewrite E in HLd. cbn [gret] in HLd.
    split; [exists lay; exact HLd|]. apply (get_account_intro e a g (mkAccount a t lay)); [now rewrite HLd|now rewrite H3|now rewrite H4|now rewrite H2].
  - right; right. split; [exact X|]. unfold gbind in HLd. rewrite (layout_of_shapeless _ _ _ X) in HLd. split; [exact HLd|].
    unfold get_account, gbind. now rewrite HLd.
Qed.
Lemma query_absent e g a : absent e g a -> get_account e a g = (Ok None, g).
Proof. intros H. unfold get_account, gbind. now rewrite (load_absent _ _ _ H). Qed.
Lemma absent_recorded e g a name t b k : absent e g a -> ~ recorded e g a name t b k.
Proof. unfold absent, recorded. congruence. Qed.
Lemma recorded_same e g a name t b k name' t' b' k' : recorded e g a name t b k -> recorded e g a name' t' b' k' ->
  name' = name /\ t' = t /\ b' = b /\ k' = k.
Proof. unfold recorded. intros E E'. rewrite E in E'. injection E' as <- <- <- <-. auto. Qed.
Lemma kinds_apart e g t : (laid_out e g t -> unknown_template e g t -> False) /\ (laid_out e g t -> shapeless e g t -> False)
  /\ (unknown_template e g t -> shapeless e g t -> False).
Proof.
  unfold laid_out, unknown_template, shapeless. split; [|split].
  - intros (l & lay & r & E & _) E'. congruence.
  - intros (l & lay & r & E & D) (l' & E' & D'). rewrite E in E'. injection E' as <-. now apply D' in D.
  - intros E (l & E' & _). congruence.
Qed.

(** ** C125 What is stored about an account is whole, and decides what the operator's calls do *)
Theorem C125_record_whole :
  forall e en g c a,
  iterates e -> collision_free e -> hash_wf e -> engine_wf en -> rt_reachable e en g c -> array_wf 20 a ->
  absent e g a \/
  exists name t b k, recorded e g a name t b k /\ string_wf 255 name /\ array_wf 20 t /\ uint_wf 64 b /\ uint_wf 128 k
    /\ (t = stub_template \/ exists l, fst (template_sections e t g) = Ok l).
Proof.
  intros e en g c a HI HC HH HE HR Ha. pose proof (rt_live e en g c HI HC HH HE HR) as HL.
  pose proof (live_typed e g HI HC HL) as HT. destruct HL as [HG HP].
  destruct (inv_whole e g (reachable_inv e g HI HC HG)) as [A B]. specialize (A a Ha).
  unfold absent, recorded, fields_of, account_name, account_template, account_balance, account_counter, gbind.
  destruct (read_data_cases e a g HT Ha HP) as [(d & bs & Hd & Ed & Cd & ->)|[Cd ->]];
    destruct (read_mut_cases e a g HT Ha HP) as [(m & bm & Hm & Em & Cm & ->)|[Cm ->]]; rewrite Cd, Cm in A; cbn [gret fst].
  - right. exists (ad_name d), (ad_template d), (am_balance m), (am_counter m). split; [reflexivity|]. destruct Hd as [D1 D2], Hm as [M1 M2].
    do 4 (split; [assumption|]). destruct (B a d bs Ha (conj D1 D2) Ed Cd) as [X|[X Y]]; [now left|right]. now apply sections_known.
  - exfalso. apply (proj1 A); [discriminate|reflexivity].
  - exfalso. apply (proj2 A); [discriminate|reflexivity].
  - now left.
Qed.
Print Assumptions C125_record_whole.

(** Querying an account answers with what is stored if its template declares a layout, with
    nothing if it is not stored (or its template is not), and aborts if its template declares no
    layout.  It never changes anything. *)
Theorem C125_query_exactly :
  forall e en g c a,
  iterates e -> collision_free e -> hash_wf e -> engine_wf en -> rt_reachable e en g c -> array_wf 20 a ->
  snd (get_account e a g) = g
  /\ (fst (get_account e a g) = Ok None <-> absent e g a \/ exists name t b k, recorded e g a name t b k /\ unknown_template e g t)
  /\ (forall b k t, fst (get_account e a g) = Ok (Some (b, k, t)) <-> exists name, recorded e g a name t b k /\ laid_out e g t)
  /\ (fst (get_account e a g) = Panic <-> exists name t b k, recorded e g a name t b k /\ shapeless e g t).
Proof.
  intros e en g c a HI HC HH HE HR Ha.
  pose proof (rt_live e en g c HI HC HH HE HR) as HL. pose proof (live_typed e g HI HC HL) as HT. pose proof (proj2 HL) as HP.
  destruct (C125_record_whole e en g c a HI HC HH HE HR Ha) as [X|(name & t & b & k & X & _ & Ht & _)].
  - rewrite (query_absent _ _ _ X). cbn [fst snd]. split; [reflexivity|]. split; [tauto|]. split.
    + intros b k t. split; [discriminate|]. intros (name & Y & _). now elim (absent_recorded _ _ _ _ _ _ _ X Y).
    + split; [discriminate|]. intros (name & t & b & k & Y & _). now elim (absent_recorded _ _ _ _ _ _ _ X Y).
  - destruct (kinds_apart e g t) as (A1 & A2 & A3).
    assert (S : forall (K : bytes -> Prop), (exists name t b k, recorded e g a name t b k /\ K t) <-> K t).
    { intros K. split; [|intros Y; exists name, t, b, k; auto]. intros (name' & t' & b' & k' & Y & Z).
      destruct (recorded_same _ _ _ _ _ _ _ _ _ _ _ X Y) as (-> & -> & -> & ->). exact Z. }
    assert (S' : forall b' k' t', (exists name, recorded e g a name t' b' k' /\ laid_out e g t') <-> laid_out e g t /\ b' = b /\ k' = k /\ t' = t).
    { intros b' k' t'. split; [|intros (Y & -> & -> & ->); exists name; auto]. intros (name' & Y & Z).
      destruct (recorded_same _ _ _ _ _ _ _ _ _ _ _ X Y) as (-> & -> & -> & ->). auto. }
    assert (NA : ~ absent e g a) by (intros Y; exact (absent_recorded _ _ _ _ _ _ _ Y X)).
    rewrite (S (unknown_template e g)), (S (shapeless e g)).
    destruct (query_recorded e g a name t b k HT HP Ht X) as [(Y & _ & ->)|[(Y & _ & ->)|(Y & _ & ->)]]; cbn [fst snd];
      (split; [reflexivity|]); (split; [split; [try discriminate; auto|intros [Z|Z]; try reflexivity; exfalso; auto]|]); (split; [|split; [try discriminate; auto|intros Z; try reflexivity; exfalso; auto]]);
      intros b' k' t'; rewrite S'.
    + split; [intros [= <- <- <-]; auto|]. intros (_ & -> & -> & ->). reflexivity.
    + split; [discriminate|]. intros (Z & _). exfalso; auto.
    + split; [discriminate|]. intros (Z & _). exfalso; auto.
Qed.
Print Assumptions C125_query_exactly.

(** What a move of money leaves of a record. *)
Lemma recorded_moves e B V g g' a name t b k b' : iterates e -> collision_free e -> live e g -> live e g' -> moves e B V g g' ->
  array_wf 20 a -> recorded e g a name t b k -> fst (account_balance e a g') = Ok b' -> recorded e g' a name t b' k.
Proof.
  intros HI HC HL HL' M Ha HR Eb. pose proof (moves_unchanged e B V g g' (live_typed e g HI HC HL) (live_typed e g' HI HC HL') M) as U.
  destruct (ue_record _ _ _ _ _ U a Ha) as (U1 & U2 & U3). unfold recorded, fields_of in *. injection HR as R1 R2 R3 R4. congruence.
Qed.
Lemma usable_load e g a b : usable e g a b -> (exists x, account_load e a g = (Ok x, g)) /\ account_balance e a g = (Ok b, g)
  /\ exists r, get_account e a g = (Ok (Some r), g).
Proof.
  intros (name & t & k & X & Y). destruct (layout_of_known _ _ _ Y) as [lay E]. pose proof (load_recorded _ _ _ _ _ _ _ X) as HLd.
  unfold gbind in HLd. rewrite E in HLd. cbn [gret] in HLd. pose proof (recorded_reads _ _ _ _ _ _ _ X) as (_ & H2 & H3 & H4).
  split; [eexists; exact HLd|]. split; [exact H3|]. exists (b, k, t). eapply get_account_intro; [now rewrite HLd|now rewrite H3|now rewrite H4|now rewrite H2].
Qed.
Lemma unusable_load e en g c a : iterates e -> collision_free e -> hash_wf e -> engine_wf en -> rt_reachable e en g c -> array_wf 20 a ->
  (exists b, usable e g a b) \/ ((forall b, ~ usable e g a b) /\ forall x, fst (account_load e a g) <> Ok x).
Proof.
  intros HI HC HH HE HR Ha. pose proof (rt_live e en g c HI HC HH HE HR) as HL. pose proof (live_typed e g HI HC HL) as HT. pose proof (proj2 HL) as HP.
  destruct (C125_record_whole e en g c a HI HC HH HE HR Ha) as [X|(name & t & b & k & X & _ & Ht & _)].
  - right. rewrite (load_absent _ _ _ X). split; [|discriminate]. intros b (name & t & k & Y & _). now elim (absent_recorded _ _ _ _ _ _ _ X Y).
  - destruct (kinds_apart e g t) as (A1 & A2 & A3).
    destruct (query_recorded e g a name t b k HT HP Ht X) as [(Y & _)|[(Y & -> & _)|(Y & -> & _)]]; [left; exists b, name, t, k; auto|right..];
      (split; [|discriminate]); intros b' (name' & t' & k' & Y' & Z); destruct (recorded_same _ _ _ _ _ _ _ _ _ _ _ X Y') as (-> & -> & -> & ->); auto.
Qed.
Lemma usable_same e g a b b' : usable e g a b -> usable e g a b' -> b' = b.
Proof. intros X Y. apply usable_load in X. apply usable_load in Y. destruct X as (_ & X & _), Y as (_ & Y & _). congruence. Qed.

Lemma fits64 n : n <= u64_max -> uint_wf 64 n.
Proof. unfold u64_max, uint_wf. lia. Qed.

(** A balance is increased exactly if the account is usable and the sum fits; otherwise the node
    aborts with nothing changed. *)
Theorem C125_increase_exactly :
  forall e en g c a n,
  iterates e -> collision_free e -> hash_wf e -> engine_wf en -> rt_reachable e en g c -> array_wf 20 a ->
  (forall name t b k, recorded e g a name t b k -> laid_out e g t -> b + n <= u64_max ->
     exists g', increase_balance e a n g = (Ok tt, g') /\ recorded e g' a name t (b + n) k /\ unchanged_except e (fun x => x = a) nobody g g')
  /\ ((forall b, usable e g a b -> u64_max < b + n) -> increase_balance e a n g = (Panic, g)).
Proof.
  intros e en g c a n HI HC HH HE HR Ha. pose proof (rt_live e en g c HI HC HH HE HR) as HL.
  destruct (increase_balance e a n g) as [r g'] eqn:E. pose proof (increase_cases e a n g r g' HI HC HL Ha E) as (HL' & M & Z).
  split.
  - intros name t b k X Y L. pose proof (ex_intro _ name (ex_intro _ t (ex_intro _ k (conj X Y))) : usable e g a b) as U.
    destruct (usable_load _ _ _ _ U) as ((x & E1) & E2 & _). unfold increase_balance, sbind, sunwrap in E. rewrite E1, E2 in E. cbv iota beta in E.
    destruct r as [[]|?|]; [|easy|].
    + exists g'. split; [reflexivity|]. destruct Z as (b0 & B0 & _ & B1). rewrite E2 in B0. injection B0 as <-. split; [|eapply moves_unchanged; eauto using live_typed].
      exact (recorded_moves _ _ _ _ _ _ _ _ _ _ _ HI HC HL HL' M Ha X B1).
    + exfalso. destruct (N.leb_spec (b + n) u64_max); [|lia].
      pose proof (GlobalProps.C57_set_balance e g a (b + n) HI HC (proj1 HL) (proj2 HL) Ha (fits64 _ H)) as Y'.
      unfold recorded in X. rewrite X in Y'. destruct Y' as (g1 & Y' & _). rewrite Y' in E. discriminate.
  - intros H. destruct r as [[]|?|]; [|easy|now subst].
    destruct (unusable_load e en g c a HI HC HH HE HR Ha) as [(b & U)|[_ NL]].
    + pose proof (H b U). destruct (usable_load _ _ _ _ U) as (_ & E2 & _). destruct Z as (b0 & B0 & B1 & _). rewrite E2 in B0. injection B0 as <-. lia.
    + exfalso. unfold increase_balance, sbind in E. destruct (@unwrap_read unit _ (account_load e a) g (reads_load e a)) as [(x & E1 & _)|[_ E1]]; [now elim (NL x)|]. rewrite E1 in E. discriminate.
Qed.
Print Assumptions C125_increase_exactly.

(** Money moves exactly if both accounts are usable, the sender can pay and the receiver's sum
    fits.  Only if the receiver's sum does not fit is the sender debited without the receiver
    being credited, the node aborting; in all other cases it aborts with nothing changed.  (A
    transfer to oneself is credited after it is debited, from the old balance.) *)
Theorem C125_transfer_exactly :
  forall e en g c src dst n,
  iterates e -> collision_free e -> hash_wf e -> engine_wf en -> rt_reachable e en g c -> array_wf 20 src -> array_wf 20 dst ->
  (forall name t b k name' t' b' k', recorded e g src name t b k -> laid_out e g t -> recorded e g dst name' t' b' k' -> laid_out e g t' -> n <= b ->
     if b' + n <=? u64_max
     then exists g', transfer e src dst n g = (Ok tt, g') /\ recorded e g' dst name' t' (b' + n) k'
            /\ (src <> dst -> recorded e g' src name t (b - n) k) /\ unchanged_except e (pair_of src dst) nobody g g'
     else exists g', transfer e src dst n g = (Panic, g') /\ recorded e g' src name t (b - n) k
            /\ unchanged_except e (fun x => x = src) nobody g g')
  /\ ((forall b b', usable e g src b -> usable e g dst b' -> b < n) -> transfer e src dst n g = (Panic, g)).
Proof.
  intros e en g c src dst n HI HC HH HE HR Hs Hd. pose proof (rt_live e en g c HI HC HH HE HR) as HL.
  split.
  - intros name t b k name' t' b' k' X Y X' Y' L.
    pose proof (ex_intro _ name (ex_intro _ t (ex_intro _ k (conj X Y))) : usable e g src b) as U.
    pose proof (ex_intro _ name' (ex_intro _ t' (ex_intro _ k' (conj X' Y'))) : usable e g dst b') as U'.
    destruct (usable_load _ _ _ _ U) as ((x & E1) & E2 & _). destruct (usable_load _ _ _ _ U') as ((x' & E1') & E2' & (r' & E3')).
    assert (ET : transfer e src dst n g = (let^ _ := sunwrap (set_balance e src (b - n)) in
       if b' + n <=? u64_max then sunwrap (set_balance e dst (b' + n)) else spanic) g).
    { unfold transfer, sbind, sunwrap. rewrite E1, E3', E1', E2, E2'. now replace (b <? n) with false by lia. }
    assert (Bb : b <= u64_max).
    { destruct (C125_record_whole e en g c src HI HC HH HE HR Hs) as [Z|(n0 & t0 & b0 & k0 & Z & _ & _ & W & _)]; [now elim (absent_recorded _ _ _ _ _ _ _ Z X)|].
      destruct (recorded_same _ _ _ _ _ _ _ _ _ _ _ X Z) as (-> & -> & -> & ->). unfold uint_wf, u64_max in *. lia. }
    destruct (transfer e src dst n g) as [r g'] eqn:E. pose proof (transfer_cases e src dst n g r g' HI HC HL Hs Hd E) as (HL' & M & Z).
    pose proof (GlobalProps.C57_set_balance e g src (b - n) HI HC (proj1 HL) (proj2 HL) Hs (fits64 (b - n) ltac:(clear - Bb; lia))) as S1.
    unfold recorded in X. rewrite X in S1. destruct S1 as (g1 & S1 & S1' & S1'' & S1v & S1t). unfold sbind, sunwrap in ET. rewrite S1 in ET.
    rewrite E2, E2' in Z. cbn [fst] in Z.
    destruct (N.leb_spec (b' + n) u64_max) as [Lb|Lb].
    + destruct r as [[]|?|]; [|easy|].
      * exists g'. split; [reflexivity|]. destruct Z as (bs & bd & Z1 & Z2 & _ & _ & Z3 & Z4). injection Z1 as <-. injection Z2 as <-.
        split; [exact (recorded_moves _ _ _ _ _ _ _ _ _ _ _ HI HC HL HL' M Hd X' Z3)|].
        split; [intros Ne; exact (recorded_moves _ _ _ _ _ _ _ _ _ _ _ HI HC HL HL' M Hs X (Z4 Ne))|]. eapply moves_unchanged; eauto using live_typed.
      * exfalso. destruct Z as [(_ & Z)|(bs & bd & Z1 & Z2 & _ & Z3 & _)]; [|injection Z1 as <-; injection Z2 as <-; lia].
        destruct Z as [Z|[Z|Z]]; [apply Z; exists x; now rewrite E1|apply Z; exists x'; now rewrite E1'|]. specialize (Z b b' eq_refl eq_refl). lia.
    + unfold spanic in ET. injection ET as -> ->. exists g1. split; [reflexivity|]. split; [exact S1'|].
      constructor; auto.
      intros z Hz. destruct (bytes_dec z src) as [->|Nz].
      * unfold fields_of in *. injection X as X1 X2 X3 X4. injection S1' as Q1 Q2 Q3 Q4. repeat split; congruence.
      * specialize (S1'' z Hz Nz). unfold fields_of in S1''. injection S1'' as Q1 Q2 Q3 Q4. auto.
  - intros H. destruct (unusable_load e en g c src HI HC HH HE HR Hs) as [(b & U)|[_ NL]].
    + destruct (usable_load _ _ _ _ U) as ((x & E1) & E2 & _).
      destruct (unusable_load e en g c dst HI HC HH HE HR Hd) as [(b' & U')|[_ NL]].
      * destruct (usable_load _ _ _ _ U') as ((x' & E1') & E2' & (r' & E3')). pose proof (H b b' U U').
        unfold transfer, sbind, sunwrap. rewrite E1, E3', E1', E2, E2'. now replace (b <? n) with true by lia.
      * unfold transfer, sbind, sunwrap. rewrite E1. unfold get_account, gbind. pose proof (reads_load e dst g) as RL.
        destruct (account_load e dst g) as [[x'|?|] g1]; cbn [fst snd] in *; subst; [now elim (NL x')|reflexivity|reflexivity].
    + unfold transfer, sbind. destruct (@unwrap_read unit _ (account_load e src) g (reads_load e src)) as [(x & E1 & _)|[_ E1]]; [now elim (NL x)|]. now rewrite E1.
Qed.
Print Assumptions C125_transfer_exactly.

(** An account is created exactly if its template declares a layout. *)
Theorem C125_create_exactly :
  forall e en g c a name t b k,
  iterates e -> collision_free e -> hash_wf e -> engine_wf en -> rt_reachable e en g c -> rop_wf (TCreate a name t b k) ->
  (laid_out e g t -> exists x g', account_create e a name t b k g = (Ok x, g') /\ recorded e g' a name t b k
     /\ forall y, array_wf 20 y -> y <> a -> fields_of e y g' = fields_of e y g)
  /\ (unknown_template e g t -> account_create e a name t b k g = (Err GNotFound, g))
  /\ (shapeless e g t -> account_create e a name t b k g = (Panic, g))
  /\ (laid_out e g t \/ unknown_template e g t \/ shapeless e g t).
Proof.
  intros e en g c a name t b k HI HC HH HE HR (Ha & Hn & Ht & Hb & Hk). pose proof (rt_live e en g c HI HC HH HE HR) as HL.
  pose proof (live_typed e g HI HC HL) as HT. pose proof (proj2 HL) as HP. unfold account_create, gbind. split; [|split; [|split]].
  - intros X. destruct (layout_of_known _ _ _ X) as [lay ->].
    destruct (write_account_effect e a name t b k g HC HT Ha Hn Ht Hb Hk) as (g' & -> & HT' & O & F). eexists _, g'. split; [reflexivity|]. split; [exact (F HP)|].
    intros y Hy Ny. eapply only_fields; eauto; cbn; intros [Q|Q]; congruence.
  - intros X. now rewrite (layout_of_unknown _ _ _ X).
  - intros X. now rewrite (layout_of_shapeless _ _ _ X).
  - destruct (sections_cases e t g HT Ht HP); tauto.
Qed.
Print Assumptions C125_create_exactly.

Lemma current_layer_live e g : iterates e -> live e g ->
  match st_next_id (gs_storage g) with
  | 0%Z => fst (gs_current_layer g) = Panic
  | z => exists fp, fst (gs_current_layer g) = Ok (Z.to_N (z - 1), fp)
  end.
Proof.
  intros HI HL. pose proof (live_next e g HI HL) as Hn.
  assert (HR : reachable e (rollback (gs_storage g))).
  { apply (reachable_exec_all e (gs_storage g) [Rollback]); [apply gs_reachable_storage, HL|repeat constructor]. }
  destruct (commit_spec e (rollback (gs_storage g)) HI HR eq_refl) as (l & prev & fp & s' & Lp & _).
  change (last_layer (rollback (gs_storage g))) with (last_layer (gs_storage g)) in Lp.
  assert (Hl : l = st_next_id (gs_storage g)).
  { unfold last_layer in Lp. destruct (_ <? _)%Z; [|discriminate]. destruct (layer_fingerprint _ _ _); try discriminate. injection Lp as Lp _. lia. }
  unfold gs_current_layer, gbind. rewrite Lp. cbn [lift]. unfold layer_of, gsome. rewrite <- Hl in *.
  destruct (Z.ltb_spec (l - 1) 0) as [L|L].
  - replace l with 0%Z by lia. reflexivity.
  - destruct l as [|p|p]; try lia. exists prev. reflexivity.
Qed.
Lemma committed_layer_next e g l : iterates e -> live e g -> (committed_layer g l <-> (Z.of_N l < st_next_id (gs_storage g))%Z).
Proof.
  intros HI HL. pose proof (live_next e g HI HL) as Hn. pose proof (current_layer_live e g HI HL) as X. unfold committed_layer.
  destruct (st_next_id (gs_storage g)) as [|p|p]; try lia.
  - split; [intros (n & fp & E & _); congruence|lia].
  - destruct X as [fp E]. split.
    + intros (n & fp' & E' & L). assert (En : n = Z.to_N (Z.pos p - 1)) by congruence. lia.
    + intros L. exists (Z.to_N (Z.pos p - 1)), fp. split; [exact E|]. lia.
Qed.
Lemma rewind_nonneg l : (-2 <= Z.of_N l)%Z.
Proof. lia. Qed.
Lemma decode_rewound {A} e (d : decoder A) k g g' l : iterates e -> live e g -> l < 2 ^ 63 -> rt_rewind l g = (Ok tt, g') ->
  fst (read_and_decode e d k g') = fst (read_and_decode e d k (at_layer (Some l) g)).
Proof.
  intros HI HL Hl. destruct (reachable_R e (gs_storage g) HI (gs_reachable_storage e g (proj1 HL))) as [v H].
  unfold rt_rewind, gs_rewind. destruct (N.ltb_spec l (2 ^ 63)); [|lia].
  pose proof (exec_sound e (Rewind (Z.of_N l)) (gs_storage g) v HI H (rewind_nonneg l)) as [X Y].
  unfold read_and_decode, gbind, at_layer. cbn [gs_layer_param option_map gs_storage]. cbn [StorageSpec.exec perform] in X, Y.
  destruct (rewind (gs_storage g) (Z.of_N l)) as [[[]|[|]|] s]; cbn [lift]; try discriminate. cbn [fst snd] in X, Y.
  destruct (Z.ltb_spec (Z.of_N l) (next_layer v)) as [L|L]; [|discriminate]. destruct (pending v); [|discriminate]. cbn [fst snd] in X, Y.
  intros [= <-]. rewrite (proj2 HL). cbn [option_map]. unfold gs_get, get. cbn [gs_storage].
  replace (as_i64 l) with (Z.of_N l) by (unfold as_i64; destruct (N.ltb_spec l (2 ^ 63)); [reflexivity|lia]).
  rewrite (R_get_now _ _ _ Y), (R_get_at _ _ _ _ H L). cbn [lift]. unfold read_now. cbn [committed staged pending app].
  unfold read_at. destruct (newest (env_hash e k) _) as [bs|]; [|reflexivity]. destruct (d bs) as [[? ?]| |]; reflexivity.
Qed.

(** Going back to a committed layer succeeds exactly if nothing is pending, and restores what was
    recorded of every account and template at that layer; with pending writes it is refused; to any
    other layer it aborts. *)
Theorem C125_rewind_exactly :
  forall e en g c l,
  iterates e -> collision_free e -> hash_wf e -> engine_wf en -> rt_reachable e en g c ->
  (l < 2 ^ 63 -> committed_layer g l ->
     if has_uncommitted_changes (gs_storage g) then rt_rewind l g = (Err (OOG, []), g)
     else exists g', rt_rewind l g = (Ok tt, g')
       /\ (forall a, fields_of e a g' = fields_of e a (at_layer (Some l) g))
       /\ (forall t, fst (template_sections e t g') = fst (template_sections e t (at_layer (Some l) g)))
       /\ exists fp, fst (gs_current_layer g') = Ok (l, fp))
  /\ (2 ^ 63 <= l \/ ~ committed_layer g l -> rt_rewind l g = (Panic, g)).
Proof.
  intros e en g c l HI HC HH HE HR. pose proof (rt_live e en g c HI HC HH HE HR) as HL.
  pose proof (committed_layer_next e g l HI HL) as CL. split.
  - intros Hl K. apply CL in K. destruct (has_uncommitted_changes (gs_storage g)) eqn:U.
    + unfold rt_rewind, gs_rewind, rewind. unfold has_uncommitted_changes in U. destruct (N.ltb_spec l (2 ^ 63)); [|lia]. destruct (Z.ltb_spec (Z.of_N l) (st_next_id (gs_storage g))); [|lia].
      destruct (st_dirty (gs_storage g)); [discriminate U|]. cbn [lift]. now destruct g.
    + assert (E : exists g', rt_rewind l g = (Ok tt, g') /\ st_next_id (gs_storage g') = (Z.of_N l + 1)%Z).
      { unfold rt_rewind, gs_rewind, rewind. unfold has_uncommitted_changes in U. destruct (N.ltb_spec l (2 ^ 63)); [|lia]. destruct (Z.ltb_spec (Z.of_N l) (st_next_id (gs_storage g))); [|lia].
        destruct (st_dirty (gs_storage g)); [|discriminate U]. cbn [lift]. eexists. split; reflexivity. }
      destruct E as (g' & E & Hn). exists g'. split; [exact E|].
      assert (D : forall A (d : decoder A) k, fst (read_and_decode e d k g') = fst (read_and_decode e d k (at_layer (Some l) g))) by (intros; now apply decode_rewound).
      split; [|split].
      * intros a. unfold fields_of, account_name, account_template, account_balance, account_counter.
        rewrite !(bind_read_same _ _ (at_layer (Some l) g) g') by apply D. reflexivity.
      * intros t. unfold template_sections, gbind.
        pose proof (D _ (dec_sections None) (key_core t)) as D1. pose proof (D _ (dec_sections None) (key_noncore t)) as D2.
        pose proof (reads_decode e (dec_sections None) (key_core t) g') as R1. pose proof (reads_decode e (dec_sections None) (key_core t) (at_layer (Some l) g)) as R2.
        destruct (read_and_decode e (dec_sections None) (key_core t) g') as [[x|?|] x1], (read_and_decode e (dec_sections None) (key_core t) (at_layer (Some l) g)) as [[x'|?|] x2];
          cbn [fst snd] in *; try congruence. subst x1 x2. injection D1 as ->.
        destruct (read_and_decode e (dec_sections None) (key_noncore t) g') as [[y|?|] x1], (read_and_decode e (dec_sections None) (key_noncore t) (at_layer (Some l) g)) as [[y'|?|] x2]; cbn [fst snd gret] in *; try congruence.
      * assert (HL' : live e g').
        { pose proof (live_op e (GRewind l) g HL I) as X. cbn [run_gop] in X. unfold rt_rewind in E. destruct (gs_rewind l g) as [[[]|?|] g1] eqn:Eg; try discriminate. injection E as ->. cbn [snd] in X. apply X; [discriminate|].
          unfold gs_rewind in Eg. destruct (_ <? _); [|now injection Eg as _ <-]. destruct (rewind _ _). now injection Eg as _ <-. }
        pose proof (current_layer_live e g' HI HL') as X. rewrite Hn in X. destruct (Z.of_N l + 1)%Z eqn:Ez; try lia. destruct X as [fp X]. exists fp. rewrite X. repeat f_equal. lia.
  - intros H. unfold rt_rewind, gs_rewind, rewind. destruct (N.ltb_spec l (2 ^ 63)); [|reflexivity].
    destruct (Z.ltb_spec (Z.of_N l) (st_next_id (gs_storage g))) as [L|L]; [|cbn [lift]; now destruct g].
    exfalso. destruct H; [lia|]. apply H. now apply CL.
Qed.
Print Assumptions C125_rewind_exactly.

(** The address of a template is that of its code: deploying the code again without a data layout
    makes queries of accounts that exist abort the node, and money sent to or from them. *)
Definition rx_shapeless : bytes :=
  match enc_sections [SCode (mkCode 0 (rx_code 1) 0 Fixed); SData []; SCtors [txt "init"]] with Some m => m | None => [] end.
Definition rx_ruined : gstate := snd (deploy rx_env (rx_envelope None) rx_shapeless rx_state).
Lemma rx_ruined_reachable : exists c, rt_reachable rx_env rx_engine rx_ruined c.
Proof.
  eexists. eapply (rr_op rx_env rx_engine (TDeploy (rx_envelope None) rx_shapeless)); [apply rx_reachable| |reflexivity].
  apply bytes_okb_ok. vm_compute. reflexivity.
Qed.
Theorem C125_queries_answer_refuted :
  ~ (forall e en g c a, iterates e -> collision_free e -> hash_wf e -> engine_wf en -> rt_reachable e en g c -> array_wf 20 a ->
       fst (get_account e a g) <> Panic).
Proof.
  intros H. destruct rx_ruined_reachable as [c HR].
  apply (H rx_env rx_engine rx_ruined c rx_b rx_iterates rx_collision_free rx_hash_wf rx_engine_wf HR rx_b_wf). vm_compute. reflexivity.
Qed.
Print Assumptions C125_queries_answer_refuted.

Example C125_satisfiable :
  recorded rx_env rx_state rx_b (txt "bob") (rx_taddr 1) 50 0 /\ laid_out rx_env rx_state (rx_taddr 1)
  /\ absent rx_env rx_state (repeat 9 20) /\ unknown_template rx_env rx_state (repeat 9 20)
  /\ shapeless rx_env rx_ruined (rx_taddr 1) /\ recorded rx_env rx_ruined rx_b (txt "bob") (rx_taddr 1) 50 0
  /\ committed_layer rx_state 0 /\ ~ committed_layer rx_start 0.
Proof.
  split; [vm_compute; reflexivity|]. split.
  { exists (rx_sections 1), rx_layout, []. split; vm_compute; reflexivity. }
  split; [vm_compute; reflexivity|]. split; [vm_compute; reflexivity|]. split.
  { exists [SCode (mkCode 0 (rx_code 1) 0 Fixed); SData []; SCtors [txt "init"]]. split; [vm_compute; reflexivity|]. intros lay rest. cbn. discriminate. }
  split; [vm_compute; reflexivity|]. split.
  - unfold committed_layer. destruct (fst (gs_current_layer rx_state)) as [[n fp]|?|] eqn:E; [|vm_compute in E; discriminate E..].
    exists n, fp. split; [reflexivity|lia].
  - intros (n & fp & E & _). vm_compute in E. discriminate E.
Qed.
