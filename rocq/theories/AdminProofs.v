(** Proofs about account records and the calls that a node's operator makes. *)
From Coq Require Import String.
From Coq Require Import List NArith ZArith Bool Lia ZifyBool ZifyNat ZifyN.
From Verif Require Import Base Text CodecModel CodecSpec CodecProofs ReceiptModel LayoutModel SectionModel SectionSpec SectionProofs
  StorageModel StorageSpec StorageProofs GlobalModel GlobalSpec GlobalProofs RuntimeModel RuntimeSpec RuntimeProofs.
Import ListNotations.
Open Scope list_scope.
Open Scope N_scope.

(* ------------------------------------------------------------------------------------ *)
(** * The two halves of an account record, and its template, are there together *)

Definition whole (W : bytes -> option bytes) : Prop :=
  (forall a, array_wf 20 a -> (W (key_immutable a) <> None <-> W (key_mutable a) <> None))
  /\ (forall a d bs, array_wf 20 a -> account_data_wf d -> enc_account_data d = Some bs -> W (key_immutable a) = Some bs ->
       ad_template d = stub_template \/ (W (key_core (ad_template d)) <> None /\ W (key_noncore (ad_template d)) <> None)).
Lemma whole_ext W W' : (forall k, W k = W' k) -> whole W -> whole W'.
Proof. intros H [A B]. split; intros *; rewrite <- ?H; eauto. Qed.

Definition settled_log (v : versions) : log := staged v ++ concat (rev (committed v)).
Definition coupled (e : env) (v : versions) : Prop :=
  whole (fun k => read_now v (env_hash e k)) /\ whole (fun k => newest (env_hash e k) (settled_log v))
  /\ forall l, whole (fun k => read_at v l (env_hash e k)).
Definition inv (e : env) (g : gstate) : Prop := exists v, R (gs_storage g) v /\ coupled e v.

Lemma whole_none : whole (fun _ => None).
Proof. split; intros; [reflexivity|discriminate]. Qed.

Lemma has_app k a b : newest k b <> None -> newest k (a ++ b) <> None.
Proof. rewrite newest_app. destruct (newest k a); auto. discriminate. Qed.
Lemma read_at_now v l k : read_at v l k <> None -> read_now v k <> None.
Proof.
  unfold read_at, read_now, upto. intros H. rewrite app_assoc. apply has_app.
  rewrite <- (firstn_skipn (Z.to_nat (l + 3)) (committed v)), rev_app_distr, concat_app. now apply has_app.
Qed.

Lemma cur_read e g v k : R (gs_storage g) v -> cur e g k = read_now v (env_hash e k).
Proof. intros H. unfold cur, get. now rewrite (R_get_now _ _ _ H). Qed.

Lemma read_param e g v k l x g' : R (gs_storage g) v -> gs_get e k (option_map as_i64 l) g = (Ok (Some x), g') ->
  cur e g k <> None.
Proof.
  intros H. rewrite (cur_read e g v k H). unfold gs_get, get. destruct l as [l|]; cbn [option_map].
  - destruct (Z.ltb_spec (as_i64 l) (next_layer v)) as [L|L].
    + rewrite (R_get_at _ _ _ _ H L). cbn [lift]. intros [= E _]. apply (read_at_now v (as_i64 l)). congruence.
    + unfold get_by_hash. rewrite (R_next _ _ H). destruct (Z.ltb_spec (as_i64 l) (next_layer v)); [lia|discriminate].
  - rewrite (R_get_now _ _ _ H). cbn [lift]. intros [= E _]. congruence.
Qed.
Lemma decode_present {A} e (d : decoder A) k g v x g' : R (gs_storage g) v ->
  read_and_decode e d k g = (Ok x, g') -> cur e g k <> None.
Proof.
  intros H. unfold read_and_decode, gbind. destruct (gs_get e k _ g) as [[[bs|]|?|] g1] eqn:E; try discriminate.
  intros _. eapply read_param; eauto.
Qed.
Lemma layout_present e t g v x g' : R (gs_storage g) v -> template_layout e t g = (Ok x, g') ->
  cur e g (key_core t) <> None /\ cur e g (key_noncore t) <> None.
Proof.
  intros H. unfold template_layout, gbind at 1. pose proof (reads_sections e t g) as RS.
  destruct (template_sections e t g) as [[l|?|] g1] eqn:E; try discriminate. intros _.
  revert E. unfold template_sections, gbind.
  pose proof (reads_decode e (dec_sections None) (key_core t) g) as R1.
  destruct (read_and_decode e (dec_sections None) (key_core t) g) as [[y|?|] g2] eqn:E1; try discriminate. cbn [snd] in R1. subst g2.
  destruct (read_and_decode e (dec_sections None) (key_noncore t) g) as [[z|?|] g2] eqn:E2; try discriminate. intros _.
  split; eapply decode_present; eauto.
Qed.

(** ** Writes *)
Definition pends {A} (m : gm A) : Prop := forall g, st_db (gs_storage (snd (m g))) = st_db (gs_storage g)
  /\ st_next_id (gs_storage (snd (m g))) = st_next_id (gs_storage g)
  /\ st_changes (gs_storage (snd (m g))) = st_changes (gs_storage g).
Lemma pends_reads {A} (m : gm A) : reads m -> pends m.
Proof. intros H g. rewrite H. auto. Qed.
Lemma pends_bind {A B} (m : gm A) (k : A -> gm B) : pends m -> (forall a, pends (k a)) -> pends (gbind m k).
Proof.
  intros Hm Hk g. unfold gbind. specialize (Hm g). destruct (m g) as [[a|?|] g1]; cbn [snd] in *; auto.
  specialize (Hk a g1). destruct Hm as (<- & <- & <-). exact Hk.
Qed.
Lemma pends_upsert e k v : pends (gs_upsert e k v).
Proof. intros g. repeat split. Qed.
Lemma pends_write {A} e (enc : encoder A) x k : pends (encode_and_write e enc x k).
Proof. apply pends_bind; [apply pends_reads, reads_some|intros; apply pends_upsert]. Qed.
Lemma pends_replace {A} e (d : decoder A) enc k f : pends (replace e d enc k f).
Proof. apply pends_bind; [apply pends_reads, reads_decode|intros; apply pends_write]. Qed.
Lemma pends_segments e a segs v : pends (write_segments e a segs v).
Proof.
  revert v. induction segs; intros v; cbn [write_segments]; [apply pends_reads, reads_ret|].
  apply pends_bind; [apply pends_reads, reads_segment|intros]. apply pends_bind; [apply pends_upsert|auto].
Qed.
Lemma pends_set_var e a id v : pends (set_var_bytes e a id v).
Proof. apply pends_bind; [apply pends_reads, reads_some|intros [? ?]]. apply pends_segments. Qed.
Lemma pends_account e addr name taddr b c : pends (write_account e addr name taddr b c).
Proof. apply pends_bind; intros; apply pends_write. Qed.
Lemma pends_template e a x y : pends (template_create e a x y).
Proof. apply pends_bind; intros; apply pends_write. Qed.

Lemma inv_pends e g g' : (exists v', R (gs_storage g') v') -> inv e g ->
  st_db (gs_storage g') = st_db (gs_storage g) -> st_next_id (gs_storage g') = st_next_id (gs_storage g) ->
  st_changes (gs_storage g') = st_changes (gs_storage g) -> whole (cur e g') -> inv e g'.
Proof.
  intros (v' & H') (v & H & A & B & C) D N S W. exists (mkVersions (committed v) (staged v) (st_dirty (gs_storage g'))).
  assert (HR : R (gs_storage g') (mkVersions (committed v) (staged v) (st_dirty (gs_storage g')))).
  { destruct H as [H1 H2 H3 H4 H5 H6 H7 H8 H9]. constructor; cbn [committed staged pending]; rewrite ?D, ?N, ?S; auto.
    apply (R_dirty_nd _ _ H'). }
  split; [exact HR|]. split; [|split; [exact B|exact C]].
  eapply whole_ext; [|exact W]. intros k. now apply cur_read.
Qed.

Lemma inv_whole e g : inv e g -> whole (cur e g).
Proof. intros (v & H & A & _). eapply whole_ext; [|exact A]. intros k. symmetry. now apply cur_read. Qed.

(** Writes to other keys, to the mutable half of an existing record and of whole records. *)
Lemma whole_only e P g g' : only e P g g' ->
  (forall a, array_wf 20 a -> ~ P (TImm a)) ->
  (forall a, array_wf 20 a -> P (TMut a) -> cur e g (key_mutable a) <> None /\ cur e g' (key_mutable a) <> None) ->
  (forall a, array_wf 20 a -> P (TCore a) -> cur e g' (key_core a) <> None) ->
  (forall a, array_wf 20 a -> P (TNon a) -> cur e g' (key_noncore a) <> None) ->
  (forall t, P t \/ ~ P t) ->
  whole (cur e g) -> whole (cur e g').
Proof.
  intros O HI HM HC HN dec [A B].
  assert (KI : forall a, array_wf 20 a -> cur e g' (key_immutable a) = cur e g (key_immutable a)).
  { intros a Ha. apply (on_cur _ _ _ _ O (TImm a)); [now split|auto]. }
  assert (KM : forall a, array_wf 20 a -> ~ P (TMut a) -> cur e g' (key_mutable a) = cur e g (key_mutable a)).
  { intros a Ha. apply (on_cur _ _ _ _ O (TMut a)). now split. }
  assert (KC : forall a, array_wf 20 a -> ~ P (TCore a) -> cur e g' (key_core a) = cur e g (key_core a)).
  { intros a Ha. apply (on_cur _ _ _ _ O (TCore a)). now split. }
  assert (KN : forall a, array_wf 20 a -> ~ P (TNon a) -> cur e g' (key_noncore a) = cur e g (key_noncore a)).
  { intros a Ha. apply (on_cur _ _ _ _ O (TNon a)). now split. }
  split.
  - intros a Ha. rewrite KI by auto. destruct (dec (TMut a)) as [D|D].
    + destruct (HM a Ha D) as [M1 M2]. split; [auto|]. intros _. now apply A.
    + rewrite KM by auto. now apply A.
  - intros a d bs Ha Hd Ed Ei. rewrite KI in Ei by auto.
    destruct (B a d bs Ha Hd Ed Ei) as [->|[X Y]]; [now left|]. right. destruct Hd as [_ Ht]. split.
    + destruct (dec (TCore (ad_template d))); [auto|]. rewrite KC by auto. exact X.
    + destruct (dec (TNon (ad_template d))); [auto|]. rewrite KN by auto. exact Y.
Qed.

Lemma bytes_dec (a b : bytes) : {a = b} + {a <> b}.
Proof. apply list_eq_dec, N.eq_dec. Qed.
Lemma tkey_dec (t u : tkey) : {t = u} + {t <> u}.
Proof. decide equality; try apply bytes_dec. apply N.eq_dec. Qed.

Lemma inv_template e addr x y g : collision_free e -> typed e g -> (exists v', R (gs_storage (snd (template_create e addr x y g))) v') ->
  array_wf 20 addr -> sections_wf x -> sections_wf y -> inv e g -> inv e (snd (template_create e addr x y g)).
Proof.
  intros HC HT HR Ha Hx Hy HV. destruct (pends_template e addr x y g) as (P1 & P2 & P3).
  apply (inv_pends e g); auto. apply inv_whole in HV. revert HR P1 P2 P3. unfold template_create, gbind. intros _ _ _ _.
  destruct (sections_rt x Hx) as (bs1 & E1 & _). destruct (sections_rt y Hy) as (bs2 & E2 & _).
  destruct (write_effect e (TCore addr) enc_sections _ bs1 g HC (conj Ha I) E1) as (g1 & W1 & O1 & C1).
  cbn [key_of] in W1, C1. rewrite W1.
  destruct (write_effect e (TNon addr) enc_sections _ bs2 g1 HC (conj Ha I) E2) as (g2 & W2 & O2 & C2).
  cbn [key_of] in W2, C2. rewrite W2. cbn [snd].
  eapply (whole_only e _ g1 g2 O2); cbn beta; try (intros; congruence).
  - intros t. destruct (tkey_dec t (TNon addr)); auto.
  - eapply (whole_only e _ g g1 O1); cbn beta; try (intros; congruence); auto.
    + intros t. destruct (tkey_dec t (TCore addr)); auto.
Qed.

Lemma inv_set_var e a id v g : collision_free e -> typed e g -> (exists v', R (gs_storage (snd (set_var_bytes e a id v g))) v') ->
  array_wf 20 (ac_addr a) -> bytes_ok v -> inv e g -> inv e (snd (set_var_bytes e a id v g)).
Proof.
  intros HC HT HR Ha Hb HV. destruct (pends_set_var e a id v g) as (P1 & P2 & P3).
  apply (inv_pends e g); auto. apply inv_whole in HV.
  destruct (set_var_cases e a id v g HC Ha HT Hb) as [->|(r & g' & _ & _ & -> & W)]; auto. cbn [snd].
  apply wrote_only in W. assert (N1 : forall t, (exists n, t = TSeg (ac_addr a) n) \/ ~ exists n, t = TSeg (ac_addr a) n).
  { intros t. destruct t as [b|b|b n|b|b]; try (right; intros [? H]; discriminate H). destruct (bytes_dec b (ac_addr a)) as [->|]; [eauto|]. right. intros [? H]. injection H as H _. auto. }
  eapply (whole_only e _ g g' W); cbn beta; auto; try (intros b Hb' [n H]; discriminate H); intros b Hb' [n H]; discriminate H.
Qed.

Lemma inv_replace e a f g : collision_free e -> typed e g ->
  (exists v', R (gs_storage (snd (replace e dec_account_mut enc_account_mut (key_mutable a) f g))) v') ->
  array_wf 20 a -> inv e g -> inv e (snd (replace e dec_account_mut enc_account_mut (key_mutable a) f g)).
Proof.
  intros HC HT HR Ha HV. destruct (pends_replace e dec_account_mut enc_account_mut (key_mutable a) f g) as (P1 & P2 & P3).
  apply (inv_pends e g); auto. pose proof HV as (v & H & _). apply inv_whole in HV. revert HR P1 P2 P3.
  unfold replace, gbind. intros _ _ _ _.
  pose proof (reads_decode e dec_account_mut (key_mutable a) g) as RD.
  destruct (read_and_decode e dec_account_mut (key_mutable a) g) as [[d|?|] g1] eqn:E; cbn [snd] in RD |- *; subst; auto.
  pose proof (decode_present e _ _ g v _ _ H E) as HP.
  unfold encode_and_write, gbind. destruct (enc_account_mut (f d)) as [bs|]; cbn [gsome gret gpanic snd]; auto.
  unfold gret. destruct (only_upsert e (TMut a) bs g HC (conj Ha I)) as [O OC]. cbn [key_of] in O, OC.
  eapply (whole_only e _ g _ O); cbn beta; auto; try (intros; congruence).
  - intros b _ [= ->]. split; [auto|]. rewrite OC. discriminate.
  - intros t. destruct (tkey_dec t (TMut a)); auto.
Qed.

Lemma inv_account e a name t b c g : collision_free e -> typed e g ->
  (exists v', R (gs_storage (snd (write_account e a name t b c g))) v') ->
  array_wf 20 a -> string_wf 255 name -> array_wf 20 t -> uint_wf 64 b -> uint_wf 128 c ->
  t = stub_template \/ (cur e g (key_core t) <> None /\ cur e g (key_noncore t) <> None) ->
  inv e g -> inv e (snd (write_account e a name t b c g)).
Proof.
  intros HC HT HR Ha Hn Ht Hb Hc HS HV. destruct (pends_account e a name t b c g) as (P1 & P2 & P3).
  apply (inv_pends e g); auto. apply inv_whole in HV. revert HR P1 P2 P3. unfold write_account, gbind. intros _ _ _ _.
  destruct (account_data_rt (mkAccountData name t)) as (bs1 & E1 & D1); [now split|].
  destruct (account_mut_rt (mkAccountMut b c)) as (bs2 & E2 & _); [now split|].
  destruct (write_effect e (TImm a) enc_account_data _ bs1 g HC (conj Ha I) E1) as (g1 & W1 & O1 & C1).
  cbn [key_of] in W1, C1. rewrite W1.
  destruct (write_effect e (TMut a) enc_account_mut _ bs2 g1 HC (conj Ha I) E2) as (g2 & W2 & O2 & C2).
  cbn [key_of] in W2, C2. rewrite W2. cbn [snd].
  assert (K : forall u, tkey_wf u -> u <> TImm a -> u <> TMut a -> cur e g2 (key_of u) = cur e g (key_of u)).
  { intros u Hu N1 N2. rewrite (on_cur _ _ _ _ O2) by auto. now apply (on_cur _ _ _ _ O1). }
  assert (KI : cur e g2 (key_immutable a) = Some bs1).
  { rewrite <- C1. apply (on_cur _ _ _ _ O2 (TImm a)); [now split|discriminate]. }
  assert (XI : forall x, array_wf 20 x -> x <> a -> cur e g2 (key_immutable x) = cur e g (key_immutable x)).
  { intros x Hx Nx. apply (K (TImm x)); [now split|congruence|congruence]. }
  assert (XM : forall x, array_wf 20 x -> x <> a -> cur e g2 (key_mutable x) = cur e g (key_mutable x)).
  { intros x Hx Nx. apply (K (TMut x)); [now split|congruence|congruence]. }
  assert (XC : forall x, array_wf 20 x -> cur e g2 (key_core x) = cur e g (key_core x)).
  { intros x Hx. apply (K (TCore x)); [now split|congruence|congruence]. }
  assert (XN : forall x, array_wf 20 x -> cur e g2 (key_noncore x) = cur e g (key_noncore x)).
  { intros x Hx. apply (K (TNon x)); [now split|congruence|congruence]. }
  destruct HV as [A B]. split.
  - intros x Hx. destruct (bytes_dec x a) as [->|Nx]; [rewrite KI, C2; split; discriminate|].
    rewrite XI, XM by auto. now apply A.
  - intros x d bs Hx Hd Ed Ei. rewrite XC, XN by apply Hd.
    destruct (bytes_dec x a) as [->|Nx].
    + rewrite KI in Ei. apply Some_inj in Ei. subst bs1. destruct (account_data_rt d Hd) as (bs' & E' & D').
      rewrite Ed in E'. apply Some_inj in E'. subst bs'. specialize (D1 []). specialize (D' []). rewrite D1 in D'. injection D' as <-. exact HS.
    + rewrite XI in Ei by auto. eapply B; eauto.
Qed.

(** ** The other operations *)
Lemma read_at_beyond v l k : (next_layer v <= l + 1)%Z -> read_at v l k = newest k (concat (rev (committed v))).
Proof. intros H. unfold read_at, upto, next_layer in *. rewrite firstn_all2 by lia. reflexivity. Qed.

Lemma coupled_perform e o v : (match o with Upsert _ _ => False | _ => True end) -> coupled e v -> coupled e (snd (perform o v)).
Proof.
  intros Ho (A & B & C). destruct o as [? ?| | | |l]; [easy|..]; cbn [perform].
  - cbn [snd]. unfold coupled, read_now, settled_log, read_at, upto in *. cbn [committed staged pending].
    split; [eapply whole_ext; [|exact A]; intros k; cbn beta; now rewrite <- app_assoc|].
    split; [eapply whole_ext; [|exact A]; intros k; cbn beta; now rewrite <- app_assoc|]. exact C.
  - cbn [snd]. unfold coupled, read_now, settled_log, read_at, upto in *. cbn [committed staged pending app]. auto.
  - destruct (pending v) as [|p ps] eqn:EP; [|cbn [snd]; now split]. cbn [snd]. unfold coupled.
    assert (E : forall k, newest k (concat (rev (committed v ++ [staged v]))) = newest k (settled_log v)).
    { intros k. rewrite rev_app_distr. reflexivity. }
    assert (X : whole (fun k => newest (env_hash e k) (concat (rev (committed v ++ [staged v]))))).
    { eapply whole_ext; [|exact B]. intros k. cbn beta. now rewrite E. }
    split; [exact X|]. split; [exact X|].
    intros l. destruct (Z.ltb_spec l (next_layer v)) as [L|L].
    + eapply whole_ext; [|exact (C l)]. intros k. cbn beta. unfold read_at, upto. cbn [committed].
      rewrite firstn_app. unfold next_layer in L. destruct (Nat.leb_spec (Z.to_nat (l + 3)) (length (committed v))).
      * replace (Z.to_nat (l + 3) - length (committed v))%nat with O by lia. now rewrite app_nil_r.
      * lia.
    + eapply whole_ext; [|exact B]. intros k. cbn beta. rewrite read_at_beyond; [cbn [committed]; now rewrite E|].
      unfold next_layer in *. cbn [committed]. rewrite app_length. cbn [length]. lia.
  - destruct (Z.ltb_spec l (next_layer v)) as [L|L]; [|cbn [snd]; now split].
    destruct (pending v) as [|p ps] eqn:EP; [|cbn [snd]; now split]. cbn [snd]. unfold coupled.
    unfold read_now, settled_log. cbn [committed staged pending app].
    split; [exact (C l)|]. split; [exact (C l)|]. intros l'.
    eapply whole_ext; [|exact (C (Z.min l' l))]. intros k. cbn beta. unfold read_at, upto. cbn [committed].
    rewrite firstn_firstn. do 4 f_equal. lia.
Qed.

Lemma inv_exec e o g s' : iterates e -> (match o with Upsert _ _ => False | Rewind l => (-2 <= l)%Z | _ => True end) ->
  inv e g -> s' = snd (StorageSpec.exec e o (gs_storage g)) -> forall p, inv e (mkGstate s' p).
Proof.
  intros HI Ho (v & H & K) -> p. exists (snd (perform o v)). split.
  - apply (exec_sound e o (gs_storage g) v HI H). destruct o; auto.
  - apply coupled_perform; auto. destruct o; auto.
Qed.

Lemma inv_gop e o g : iterates e -> collision_free e -> gop_wf o -> gs_reachable e g -> inv e g -> inv e (run_gop e o g).
Proof.
  intros HI HC Hw HG HV. pose proof (reachable_typed e g HI HC HG) as HT.
  assert (HR : exists v', R (gs_storage (run_gop e o g)) v').
  { apply (reachable_R e); auto. apply gs_reachable_storage. now constructor. }
  pose proof HV as (v & Hv & _).
  destruct o; cbn [run_gop gop_wf] in *.
  - apply inv_template; tauto.
  - revert HR. unfold account_create_stub, gbind. destruct (write_account_effect e addr name stub_template balance counter g) as (g' & W & _); try tauto.
    { split; [reflexivity|]. apply bytes_okb_ok. reflexivity. }
    pose proof (inv_account e addr name stub_template balance counter g HC HT) as X. rewrite W in *. cbn [snd gret] in *. intros HR. apply X; try tauto.
    split; [reflexivity|]. apply bytes_okb_ok. reflexivity.
  - revert HR. unfold account_create, gbind. pose proof (reads_layout e taddr g) as RL.
    destruct (template_layout e taddr g) as [[x|?|] g1] eqn:EL; cbn [snd] in RL |- *; subst; auto.
    destruct (write_account_effect e addr name taddr balance counter g) as (g' & W & _); try tauto.
    pose proof (inv_account e addr name taddr balance counter g HC HT) as X. rewrite W in *. cbn [snd gret] in *. intros HR. apply X; try tauto.
    right. eapply layout_present; eauto.
  - apply inv_set_var; tauto.
  - apply inv_replace; tauto.
  - apply inv_replace; tauto.
  - eapply (inv_exec e Checkpoint); eauto.
  - unfold gs_commit, gs_commit_raw, gbind. pose proof (inv_exec e Commit g _ HI I HV eq_refl (gs_layer_param g)) as X.
    cbn [StorageSpec.exec] in X. destruct (commit e (gs_storage g)) as [[[i f]|[|]|] s]; cbn [lift snd] in *; auto.
    destruct (layer_of i); exact X.
  - eapply (inv_exec e Rollback); eauto.
  - unfold gs_rewind. destruct (l <? 2 ^ 63); auto.
    pose proof (inv_exec e (Rewind (Z.of_N l)) g _ HI ltac:(cbv beta iota; lia) HV eq_refl (gs_layer_param g)) as X. cbn [StorageSpec.exec] in X.
    destruct (rewind _ _) as [[|[|]|] s]; exact X.
  - destruct HV as (w & X & Y). exists w. auto.
Qed.

Lemma inv_templates e ts : iterates e -> collision_free e ->
  Forall (fun t => array_wf 20 (fst t) /\ sections_wf (snd t)) ts ->
  forall g, typed e g -> reachable e (gs_storage g) -> inv e g -> inv e (snd (create_templates e ts g)).
Proof.
  intros HI HC H. induction H as [|[addr l] ts [Ha Hl] _ IH]; intros g HT HR HV; cbn [create_templates]; [exact HV|].
  cbn [fst snd] in *. destruct (remove_noncore l) as [[a b]|] eqn:E; cbn [gsome]; [|exact HV].
  unfold gbind at 1. unfold gret. apply remove_noncore_perm in E. apply (sections_wf_perm _ _ E) in Hl. apply sections_wf_app in Hl.
  destruct Hl as [Hx Hy]. unfold gbind.
  destruct (template_create_effect e addr a b g HC HT Ha Hx Hy) as (g' & W & HT' & _).
  assert (HR' : reachable e (gs_storage g')).
  { destruct (emits_template e addr a b g) as (ops & O1 & O2). rewrite W in O2. cbn [snd] in O2. rewrite O2.
    apply reachable_exec_all; auto. now apply no_rewind_above. }
  pose proof (inv_template e addr a b g HC HT) as X. rewrite W in *. cbn [snd] in X. apply IH; auto. apply X; auto.
  now apply (reachable_R e).
Qed.

Lemma inv_new e ts g : iterates e -> collision_free e ->
  Forall (fun t => array_wf 20 (fst t) /\ sections_wf (snd t)) ts ->
  gs_new e empty_db ts = Some g -> inv e g.
Proof.
  intros HI HC Hts. unfold gs_new. change (open_db empty_db) with (Ok (A := storage) (E := storage_error) fresh). cbv beta iota.
  assert (H0 : typed e (mkGstate fresh None)) by (repeat split; cbn; constructor).
  assert (HV : inv e (mkGstate fresh None)).
  { exists empty_versions. split; [apply R_fresh|]. split; [apply whole_none|]. split; [apply whole_none|].
    intros l. eapply whole_ext; [|apply whole_none]. intros k. unfold read_at, upto, empty_versions. cbn [committed].
    destruct (Z.to_nat (l + 3)) as [|[|n]]; reflexivity. }
  assert (HR : reachable e fresh) by (exists []; split; [constructor|reflexivity]).
  unfold init_genesis. replace (genesis_fingerprint (gs_storage (mkGstate fresh None))) with (@None bytes) by reflexivity.
  unfold gbind. pose proof (inv_templates e ts HI HC Hts _ H0 HR HV) as H1.
  destruct (create_templates e ts (mkGstate fresh None)) as [[[]|?|] g1] eqn:E1; try discriminate. cbn [snd] in H1.
  unfold gs_checkpoint, gs_commit_raw. cbn [gs_storage gs_layer_param].
  pose proof (inv_exec e Checkpoint g1 _ HI I H1 eq_refl (gs_layer_param g1)) as H2. cbn [StorageSpec.exec snd] in H2.
  pose proof (inv_exec e Commit _ _ HI I H2 eq_refl (gs_layer_param g1)) as H3. cbn [StorageSpec.exec snd gs_storage] in H3.
  destruct (commit e (checkpoint e (gs_storage g1))) as [[[i f]|[|]|] s]; cbn [lift] in *; try discriminate.
  destruct (i =? -1)%Z; [|discriminate]. intros [= <-]. exact H3.
Qed.

Lemma reachable_inv e g : iterates e -> collision_free e -> gs_reachable e g -> inv e g.
Proof. intros HI HC. induction 1 as [ts g Hts H|o g HG IH Ho]; [eapply inv_new; eauto|]. now apply inv_gop. Qed.
