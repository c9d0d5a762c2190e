(** Proofs about the money supply over histories. *)
From Coq Require Import List NArith ZArith Bool Lia.
From Coq Require Import ZifyBool ZifyNat ZifyN.
From Verif Require Import Base CodecModel CodecSpec CodecProofs ReceiptModel ReceiptProofs LayoutModel LayoutSpec.
From Verif Require Import SectionModel SectionSpec SectionProofs SectionCanon.
From Verif Require Import StorageModel StorageSpec StorageProofs GlobalModel GlobalSpec GlobalProofs.
From Verif Require Import RuntimeModel RuntimeSpec RuntimeProofs SupplySpec.
Import ListNotations.
Open Scope N_scope.

(** After the step some list has all accounts; at most [n] coins were added, and exactly [n]
    when [F] holds. *)
Definition adds (e : env) (l : list bytes) (s n : N) (F : Prop) (g' : gstate) : Prop :=
  exists l', live e g' /\ all_accounts e g' l' /\ incl l l' /\ supply e g' l' <= s + n
             /\ (F -> supply e g' l' = s + n).

Lemma conserved_adds e l s F g' : conserved e l s g' -> adds e l s 0 F g'.
Proof. intros (H1 & H2 & H3). exists l. rewrite H3. split; auto. split; auto. split; [apply incl_refl|]. split; [lia|intros; lia]. Qed.

(** Only the balance of [a] changes. *)
Lemma supply_change e g g' l a : NoDup l -> In a l ->
  (forall x, In x l -> x <> a -> balance e g' x = balance e g x) ->
  supply e g' l + balance e g a = supply e g l + balance e g' a.
Proof.
  induction l as [|x l IH]; intros HN HA HB; [destruct HA|]. inversion HN as [|? ? Hx HN']; subst. cbn [supply].
  destruct HA as [->|HA].
  - rewrite (supply_same e g g' l); [lia|]. intros y Hy. apply HB; [now right|]. intros ->. contradiction.
  - rewrite (HB x); [|now left|congruence]. specialize (IH HN' HA (fun y Hy => HB y (or_intror Hy))). lia.
Qed.

Lemma only_balance e P g g' x : only e P g g' -> array_wf 20 x -> ~ P (TMut x) ->
  fst (account_balance e x g') = fst (account_balance e x g).
Proof.
  intros O Hx Hn. unfold account_balance. apply bind_read_same. apply decode_same; try apply O.
  apply (on_cur _ _ _ _ O (TMut x)); [now split|auto].
Qed.

(** Writing a whole account. *)
Lemma account_write_adds e l g g' a b : live e g' -> all_accounts e g l -> array_wf 20 a ->
  (forall x, array_wf 20 x -> x <> a -> fst (account_balance e x g') = fst (account_balance e x g)) ->
  fst (account_balance e a g') = Ok b ->
  adds e l (supply e g l) b (vacant e g a) g'.
Proof.
  intros HL' (HN & HF & HA) Ha HO HB.
  assert (BX : forall x, array_wf 20 x -> x <> a -> balance e g' x = balance e g x) by (intros; unfold balance; now rewrite HO).
  assert (BA : balance e g' a = b) by (unfold balance; now rewrite HB).
  destruct (in_dec (list_eq_dec N.eq_dec) a l) as [Hin|Hin].
  - exists l. split; auto. rewrite Forall_forall in HF.
    pose proof (supply_change e g g' l a HN Hin (fun x Hx Hne => BX x (HF x Hx) Hne)) as Q. rewrite BA in Q.
    split; [|split; [apply incl_refl|split; [lia|]]].
    + split; auto. split; [now apply Forall_forall|]. intros x b' Hx Hb'. destruct (list_eq_dec N.eq_dec x a) as [->|Hne]; auto.
      apply (HA x b'); auto. now rewrite <- HO.
    + intros HV. assert (balance e g a = 0) by (unfold balance; destruct (fst (account_balance e a g)) eqn:E; auto; now apply HV in E). lia.
  - exists (a :: l). split; auto. rewrite Forall_forall in HF.
    assert (Q : supply e g' (a :: l) = supply e g l + b).
    { cbn [supply]. rewrite BA. rewrite (supply_same e g g' l); [lia|]. intros x Hx. apply BX; auto. intros ->. contradiction. }
    rewrite Q. split; [|split; [now apply incl_tl, incl_refl|split; [lia|auto]]].
    split; [now constructor|]. split; [constructor; auto; now apply Forall_forall|].
    intros x b' Hx Hb'. destruct (list_eq_dec N.eq_dec x a) as [->|Hne]; [now left|right].
    apply (HA x b'); auto. now rewrite <- HO.
Qed.

Lemma create_adds e a name t b k g l r g' : iterates e -> collision_free e -> live e g -> all_accounts e g l ->
  array_wf 20 a -> string_wf 255 name -> array_wf 20 t -> uint_wf 64 b -> uint_wf 128 k ->
  account_create e a name t b k g = (r, g') ->
  (g' = g /\ forall x, r <> Ok x) \/ ((exists x, r = Ok x) /\ adds e l (supply e g l) b (vacant e g a) g').
Proof.
  intros HI HC HL HA Ha Hn Ht Hb Hk E.
  pose proof (create_live e a name t b k g HI HC HL Ha Hn Ht Hb Hk) as HL'. rewrite E in HL'. cbn [snd] in HL'.
  pose proof (live_typed e g HI HC HL) as HT. unfold account_create, gbind in E.
  pose proof (reads_layout e t g) as RL.
  destruct (template_layout e t g) as [[lay|?|] g0]; cbn [snd] in RL; subst g0;
    [|injection E as <- <-; left; split; [auto|discriminate]..].
  destruct (write_account_effect e a name t b k g HC HT Ha Hn Ht Hb Hk) as (g1 & W & _ & O & F).
  rewrite W in E. cbn [gret] in E. injection E as <- <-. right. split; [eauto|].
  specialize (F (proj2 HL)). unfold fields_of in F. injection F as _ _ F _.
  apply (account_write_adds e l g g1 a b); auto.
  intros x Hx Hne. eapply only_balance; [exact O|auto|]. intros [Q|Q]; congruence.
Qed.

Lemma increase_adds e a n g l : iterates e -> collision_free e -> live e g -> all_accounts e g l -> array_wf 20 a ->
  adds e l (supply e g l) (issued_by e (TIncrease a n) g) True (snd (increase_balance e a n g)).
Proof.
  intros HI HC HL HA Ha. cbn [issued_by]. destruct (increase_balance e a n g) as [r g'] eqn:E.
  apply increase_cases in E; auto. destruct E as (HL' & M & R). cbn [fst snd]. destruct r as [[]|?|]; [|contradiction|].
  2:{ subst. now apply conserved_adds. }
  destruct R as (b & B1 & _ & B2). destruct HA as (HN & HF & HA). rewrite Forall_forall in HF.
  assert (Hin : In a l) by eauto.
  assert (MO : forall x, array_wf 20 x -> x <> a -> fst (account_balance e x g') = fst (account_balance e x g))
    by (intros; eapply moves_balance; [exact M|auto|auto]).
  assert (Q : supply e g' l + balance e g a = supply e g l + balance e g' a).
  { apply supply_change; auto. intros x Hx Hne. unfold balance. now rewrite MO by auto. }
  assert (BA : balance e g a = b) by (unfold balance; now rewrite B1).
  assert (BA' : balance e g' a = b + n) by (unfold balance; now rewrite B2).
  rewrite BA, BA' in Q. exists l. split; auto. split; [|split; [apply incl_refl|split; [lia|intros; lia]]].
  split; auto. split; [now apply Forall_forall|]. intros x b' Hx Hb'.
  destruct (list_eq_dec N.eq_dec x a) as [->|Hne]; auto. apply (HA x b'); auto. now rewrite <- MO.
Qed.

Lemma spawn_adds e en ev m c g l : iterates e -> collision_free e -> hash_wf e -> engine_wf en -> contracts_no_self en ->
  live e g -> bytes_ok m -> all_accounts e g l -> supply e g l <= u64_max ->
  adds e l (supply e g l) 0 (fresh_place e (TSpawn ev m) g) (snd (spawn e en ev m c g)).
Proof.
  intros HI HC HH HE HN HL Hm HA HS. unfold spawn, fresh_place.
  assert (HK : forall F, adds e l (supply e g l) 0 F g) by (intros; now apply conserved_adds).
  destruct (decoded dec_spawn m) as [sp|] eqn:Ed; [|apply HK].
  assert (Hsp : spawn_wf sp) by (eapply decoded_canon; eauto using spawn_canon).
  pose proof (reads_sections e (sp_template sp) g) as R1.
  destruct (template_sections e (sp_template sp) g) as [[sec|?|] g0]; cbn [snd] in R1; subst; try apply HK.
  pose proof (reads_exec_prefix sp sec g) as R2.
  destruct (ensure_ctor _ _ _ g) as [[[]|[? ?]|] g0]; cbn [snd] in R2; subst; try apply HK.
  destruct (check_gas_for_func _ _ _ _ _ _) as [[[n|]|] c']; try apply HK.
  destruct (account_create e (account_addr e (sp_template sp)) _ _ 0 0 g) as [r g1] eqn:Ec.
  destruct Hsp as [S1 S2 S3 S4 S5].
  apply (create_adds e _ _ _ 0 0 g l) in Ec; auto; try reflexivity; [|now apply addr_wf].
  destruct Ec as [[-> Hr]|[[a ->] (l' & HL' & HA' & Hi & Hle & Heq)]].
  { destruct r as [x|?|]; [now destruct (Hr x)|apply HK..]. }
  unfold call_ctor. set (cl := mkCall _ _ _ _ _ _).
  assert (K : conserved e l' (supply e g1 l') (snd (exec e en cl g1))).
  { apply exec_supply; auto; [lia|now split|cbn; now apply addr_wf|apply S5]. }
  assert (K' : adds e l (supply e g l) 0 (forall sp0, Some sp = Some sp0 -> vacant e g (account_addr e (sp_template sp0)))
                (snd (exec e en cl g1))).
  { destruct K as (K1 & K2 & K3). exists l'. rewrite K3. split; auto. split; auto. }
  unfold exec_call. destruct (exec e en cl g1) as [[rc|[? ?]|] g2]; exact K'.
Qed.

Lemma deploy_adds e ev m g l F : iterates e -> collision_free e -> hash_wf e -> live e g -> bytes_ok m ->
  all_accounts e g l -> adds e l (supply e g l) 0 F (snd (deploy e ev m g)).
Proof.
  intros HI HC HH HL Hm HA. destruct (deploy e ev m g) as [r g'] eqn:E. apply deploy_cases in E; auto.
  destruct E as (HL' & E). cbn [snd]. apply conserved_adds.
  destruct E as [[_ ->]|[(_ & _ & ->)|(s & cs & _ & _ & _ & _ & _ & _ & O)]]; [now split|now split|].
  assert (BO : forall x, array_wf 20 x -> fst (account_balance e x g') = fst (account_balance e x g)).
  { intros x Hx. eapply only_balance; [exact O|auto|]. intros [Q|Q]; discriminate. }
  destruct HA as (HN & HF & HA). split; auto. split.
  - split; auto. split; auto. intros x b Hx Hb. apply (HA x b); auto. now rewrite <- BO.
  - apply supply_same. intros x Hx. rewrite Forall_forall in HF. unfold balance. now rewrite BO by auto.
Qed.

Lemma commit_adds e g l F : iterates e -> live e g -> all_accounts e g l ->
  adds e l (supply e g l) 0 F (snd (rt_commit e g)).
Proof.
  intros HI HL HA. apply conserved_adds.
  destruct (has_uncommitted_changes (gs_storage g)) eqn:Hu.
  - assert (E : snd (rt_commit e g) = g).
    { unfold has_uncommitted_changes in Hu. unfold rt_commit, gs_commit, gbind, gs_commit_raw, commit.
      destruct (st_dirty (gs_storage g)); [discriminate|]. cbn. now destruct g. }
    rewrite E. now split.
  - destruct (commit_now e g HI HL Hu) as (HL' & SN & _).
    assert (E : snd (rt_commit e g) = snd (gs_commit e g)) by (unfold rt_commit; now destruct (gs_commit e g) as [[?|?|] ?]).
    rewrite E. eapply same_now_conserved; eauto. now split.
Qed.

Lemma step_adds e en o g c l : iterates e -> collision_free e -> hash_wf e -> engine_wf en -> contracts_no_self en ->
  live e g -> rop_wf o -> forward o -> all_accounts e g l -> supply e g l <= u64_max ->
  adds e l (supply e g l) (issued_by e o g) (fresh_place e o g) (fst (run_rop e en o (g, c))).
Proof.
  intros HI HC HH HE HN HL Ho [Hf Hf'] HA HS. destruct o; cbn [run_rop fst rop_wf no_self] in *.
  - now apply deploy_adds.
  - pose proof (spawn_adds e en ev message c g l HI HC HH HE HN HL Ho HA HS) as K. cbn [issued_by].
    now destruct (spawn e en ev message c g) as [[? ?] ?].
  - destruct (verify_pure e en message g) as [-> _]. apply conserved_adds. now split.
  - apply conserved_adds. destruct (call_supply e en message g l) as [K1 K2]; auto. split; auto.
    unfold rt_call. destruct (decoded dec_transaction message) as [tx|] eqn:Ed; [|exact HL].
    assert (Hw : transaction_wf tx) by (eapply decoded_canon; eauto using transaction_canon).
    destruct Hw as [S1 S2 S3 S4 S5]. apply transact_live; auto. apply S5.
  - destruct Ho as [Hs Hd]. apply conserved_adds.
    destruct (transfers_supply e [(src, dst, amount)] l HI HC) with (g := g) as [K1 K2]; auto.
    cbn [run_transfers] in *. split; auto.
    destruct (transfer e src dst amount g) as [r g1] eqn:E. apply transfer_cases in E; auto. apply E.
  - destruct (increase_adds e addr amount g l) as (l' & K); auto. exists l'. intuition.
  - destruct Ho as (H1 & H2 & H3 & H4 & H5). cbn [issued_by fresh_place].
    destruct (account_create e addr name taddr balance counter g) as [r g'] eqn:E. cbn [fst snd].
    apply (create_adds e _ _ _ _ _ g l) in E; auto. destruct E as [[-> Hr]|[[x ->] K]]; [|exact K].
    destruct r as [x|?|]; [now destruct (Hr x)|apply conserved_adds; now split..].
  - now apply commit_adds.
  - contradiction.
Qed.

Lemma history_adds e en ops : iterates e -> collision_free e -> hash_wf e -> engine_wf en -> contracts_no_self en ->
  Forall rop_wf ops -> Forall forward ops -> forall g c l,
  live e g -> all_accounts e g l -> supply e g l + issued e en ops (g, c) <= u64_max ->
  adds e l (supply e g l) (issued e en ops (g, c)) (all_fresh e en ops (g, c)) (fst (run_rops e en ops (g, c))).
Proof.
  intros HI HC HH HE HN HW HF. induction HW as [|o ops Ho HW IH]; intros g c l HL HA HS; cbn [run_rops issued all_fresh fst] in *.
  - apply conserved_adds. now split.
  - inversion HF as [|? ? Hf HF']; subst.
    destruct (step_adds e en o g c l HI HC HH HE HN HL Ho Hf HA ltac:(lia)) as (l1 & HL1 & HA1 & Hi1 & Hle1 & Heq1).
    destruct (run_rop e en o (g, c)) as [g1 c1]. cbn [fst] in *.
    destruct (IH HF' g1 c1 l1 HL1 HA1 ltac:(lia)) as (l2 & HL2 & HA2 & Hi2 & Hle2 & Heq2).
    exists l2. split; auto. split; auto. split; [eapply incl_tran; eauto|]. split; [lia|].
    intros [F1 F2]. specialize (Heq1 F1). specialize (Heq2 F2). lia.
Qed.

(* ------------------------------------------------------------------------------------ *)
(** * The beginning *)

Lemma no_account_balance e g p x : store_all (fun h _ => forall y, array_wf 20 y -> h <> env_hash e (key_of (TMut y))) (gs_storage g) ->
  array_wf 20 x -> vacant e (mkGstate (gs_storage g) p) x.
Proof.
  intros HS Hx b. unfold account_balance, gbind at 1, read_and_decode, gbind, gs_get, get. cbn [gs_layer_param gs_storage].
  destruct (get_by_hash _ _ _) as [[v|]|?|] eqn:E; cbn [lift]; try discriminate.
  destruct (get_all _ _ _ _ _ HS E x Hx eq_refl).
Qed.

Lemma genesis_store e ts g : iterates e -> collision_free e ->
  Forall (fun t => array_wf 20 (fst t) /\ sections_wf (snd t)) ts ->
  gs_new e empty_db ts = Some g ->
  store_all (fun h _ => forall y, array_wf 20 y -> h <> env_hash e (key_of (TMut y))) (gs_storage g).
Proof.
  intros HI HC Hts Hg. revert Hg. unfold gs_new. change (open_db empty_db) with (Ok (A := storage) (E := storage_error) fresh). cbv beta iota.
  unfold init_genesis. replace (genesis_fingerprint (gs_storage (mkGstate fresh None))) with (@None bytes) by reflexivity.
  set (P := fun (h _ : bytes) => forall y, array_wf 20 y -> h <> env_hash e (key_of (TMut y))).
  assert (H0 : store_all P (gs_storage (mkGstate fresh None))) by (repeat split; constructor).
  assert (HW : forall t l g, tkey_wf t -> (forall y, t <> TMut y) -> store_all P (gs_storage g) ->
            store_all P (gs_storage (snd (encode_and_write e enc_sections l (key_of t) g)))).
  { intros t l g1 Ht Hn HA. unfold encode_and_write, gbind. destruct (enc_sections l) as [bs|] eqn:Ee; [|exact HA].
    cbn. apply upsert_all; auto. intros y Hy Heq.
    apply HC in Heq; [|apply tkey_storage; auto; now split..]. apply key_of_inj in Heq; auto; [|now split]. now apply (Hn y). }
  assert (H1 : store_all P (gs_storage (snd (create_templates e ts (mkGstate fresh None))))).
  { generalize dependent (mkGstate fresh None). induction Hts as [|[addr l] ts (Ha & Hl) _ IH]; intros g0 H0; [exact H0|].
    cbn [fst snd] in *. cbn [create_templates]. unfold gbind at 1. destruct (remove_noncore l) as [[a b]|] eqn:E; cbn [gsome]; [|exact H0].
    unfold gret. unfold gbind at 1.
    assert (T : store_all P (gs_storage (snd (template_create e addr a b g0)))).
    { unfold template_create, gbind.
      assert (T1 : store_all P (gs_storage (snd (encode_and_write e enc_sections a (key_of (TCore addr)) g0)))).
      { apply HW; auto; [now split|discriminate]. }
      cbn [key_of] in T1.
      destruct (encode_and_write e enc_sections a (key_core addr) g0) as [[[]|?|] g1]; cbn [snd] in *; auto.
      apply (HW (TNon addr)); auto; [now split|discriminate]. }
    destruct (template_create e addr a b g0) as [[[]|?|] g1]; cbn [snd] in *; auto. }
  unfold gbind. destruct (create_templates e ts _) as [[[]|?|] g1]; cbn [snd] in H1; try discriminate.
  cbn [gs_checkpoint]. unfold gs_commit_raw. cbn [gs_storage].
  pose proof (commit_all P e _ HI (checkpoint_all P e _ HI H1)) as H2.
  destruct (commit e _) as [[[id fp]|?|] s']; cbn [snd lift] in *; try discriminate.
  destruct (id =? -1)%Z; [|discriminate]. intros [= <-]. exact H2.
Qed.

Lemma genesis_vacant e ts g x : iterates e -> collision_free e ->
  Forall (fun t => array_wf 20 (fst t) /\ sections_wf (snd t)) ts ->
  gs_new e empty_db ts = Some g -> array_wf 20 x -> vacant e g x.
Proof.
  intros HI HC Hts Hg Hx. pose proof (no_account_balance e g (gs_layer_param g) x (genesis_store e ts g HI HC Hts Hg) Hx).
  now destruct g.
Qed.

Lemma genesis_accounts e ts g : iterates e -> collision_free e ->
  Forall (fun t => array_wf 20 (fst t) /\ sections_wf (snd t)) ts ->
  gs_new e empty_db ts = Some g -> all_accounts e g [].
Proof.
  intros HI HC Hts Hg. split; [constructor|]. split; [constructor|]. intros x b Hx Hb.
  now apply (genesis_vacant e ts g x HI HC Hts Hg Hx b) in Hb.
Qed.

(* ------------------------------------------------------------------------------------ *)
(** * Committed layers, and going back to them *)

(** The state as it is seen at layer [m]. *)
Definition seen_at (m : N) (g : gstate) : gstate := mkGstate (gs_storage g) (Some m).

(** At most [t] coins in all accounts together. *)
Definition at_most (e : env) (t : N) (g : gstate) : Prop := exists l, all_accounts e g l /\ supply e g l <= t.

Lemma balance_view e g g' x : (forall k, get e (gs_storage g') k (option_map as_i64 (gs_layer_param g'))
                                   = get e (gs_storage g) k (option_map as_i64 (gs_layer_param g))) ->
  fst (account_balance e x g') = fst (account_balance e x g).
Proof.
  intros H. unfold account_balance. apply bind_read_same. unfold read_and_decode, gbind, gs_get. rewrite H.
  destruct (get _ _ _ _) as [[v|]|?|]; cbn [lift]; auto. now destruct (dec_account_mut v) as [[? ?]|?|].
Qed.

Lemma at_most_same e t g g' : (forall x, array_wf 20 x -> fst (account_balance e x g') = fst (account_balance e x g)) ->
  at_most e t g -> at_most e t g'.
Proof.
  intros H (l & (HN & HF & HA) & HS). exists l. split.
  - split; auto. split; auto. intros x b Hx Hb. apply (HA x b); auto. now rewrite <- H.
  - rewrite (supply_same e g g' l); auto. intros x Hx. rewrite Forall_forall in HF. unfold balance. now rewrite H by auto.
Qed.

Lemma at_most_vacant e t g : (forall x, vacant e g x) -> at_most e t g.
Proof.
  intros H. exists []. split; [|cbn; lia]. split; [constructor|]. split; [constructor|]. intros x b _ Hb. now apply H in Hb.
Qed.
Lemma at_most_weaken e t t' g : t <= t' -> at_most e t g -> at_most e t' g.
Proof. intros Ht (l & HA & HS). exists l. split; auto. lia. Qed.

(** Every layer seen from [g'] was there before, or is what is seen now, or is not there. *)
Definition history (e : env) (g g' : gstate) : Prop := forall m : Z,
  (forall k, get e (gs_storage g') k (Some m) = get e (gs_storage g) k (Some m))
  \/ (forall k, get e (gs_storage g') k (Some m) = get e (gs_storage g') k None)
  \/ (forall k, get e (gs_storage g') k (Some m) = Panic).

Lemma history_refl e g : history e g g.
Proof. intros m. now left. Qed.
Lemma history_same e g g' : st_db (gs_storage g') = st_db (gs_storage g) ->
  st_next_id (gs_storage g') = st_next_id (gs_storage g) -> history e g g'.
Proof. intros H1 H2 m. left. intros k. unfold get, get_by_hash. now rewrite H1, H2. Qed.
Lemma only_history e P g g' : only e P g g' -> history e g g'.
Proof. intros [_ H1 H2 _]. now apply history_same. Qed.
Lemma moves_hist e B V g g' : moves e B V g g' -> history e g g'.
Proof. intros [H _]. eapply only_history; eauto. Qed.
(** Layers are compared with the present only at the end. *)
Lemma history_trans_same e g1 g2 g3 : st_db (gs_storage g2) = st_db (gs_storage g1) ->
  st_next_id (gs_storage g2) = st_next_id (gs_storage g1) -> history e g2 g3 -> history e g1 g3.
Proof.
  intros H1 H2 H m. destruct (H m) as [K|K]; [left|now right]. intros k. rewrite K. unfold get, get_by_hash. now rewrite H1, H2.
Qed.

Lemma commit_history e g : iterates e -> gs_reachable e g -> history e g (mkGstate (snd (commit e (gs_storage g))) (gs_layer_param g)).
Proof.
  intros HI HR. destruct (has_uncommitted_changes (gs_storage g)) eqn:Hu.
  { unfold has_uncommitted_changes in Hu. unfold commit. destruct (st_dirty (gs_storage g)); [discriminate|].
    apply history_same; reflexivity. }
  destruct (commit_spec e _ HI (gs_reachable_storage e g HR) Hu) as (l & prev & fp & s' & _ & Hc & _ & Hn & Hl & Hm).
  assert (NX : st_next_id s' = (l + 1)%Z).
  { unfold commit in Hc. destruct (st_dirty _); [|discriminate]. destruct (layer_fingerprint _ _ _); try discriminate.
    destruct (insert_layer _ _ _ _); try discriminate. destruct (insert_values _ _ _); try discriminate.
    injection Hc as <- _ <-. reflexivity. }
  rewrite Hc. cbn [snd]. intros m. unfold get. cbn [gs_storage]. destruct (Z.lt_trichotomy m l) as [H|[->|H]].
  - left. intros k. now apply Hm.
  - right. left. intros k. now rewrite Hl, Hn.
  - right. right. intros k. unfold get_by_hash. rewrite NX. destruct (Z.ltb_spec m (l + 1)); [lia|reflexivity].
Qed.

Lemma gs_commit_history e g : iterates e -> gs_reachable e g -> history e g (snd (gs_commit e g)).
Proof.
  intros HI HR. pose proof (commit_history e g HI HR) as H. unfold gs_commit, gbind, gs_commit_raw.
  destruct (commit e (gs_storage g)) as [[[i f]|?|] s']; cbn [lift snd] in *; auto. destruct (layer_of i); exact H.
Qed.

Lemma checkpoint_same e g : st_db (gs_storage (snd (gs_checkpoint e g))) = st_db (gs_storage g)
  /\ st_next_id (gs_storage (snd (gs_checkpoint e g))) = st_next_id (gs_storage g).
Proof.
  cbn [gs_checkpoint snd gs_storage]. unfold checkpoint. destruct (fold_left _ _ _). split; reflexivity.
Qed.

Lemma outcome_history e mem logs f g : iterates e -> live e g -> history e g (snd (outcome_to_receipt e mem logs f g)).
Proof.
  intros HI HL. unfold outcome_to_receipt, sbind at 1.
  destruct (take_returndata f mem) as [data|]; cbn [ssome]; [|apply history_refl]. unfold sret at 1.
  unfold sbind at 1, commit_changes, sbind at 1.
  destruct (can_write f) eqn:Ew; cbn [sassert]; [|apply history_refl]. unfold sret at 1.
  destruct (checkpoint_now e g HI HL) as (HL1 & _ & E1 & _). destruct (checkpoint_same e g) as [C1 C2].
  unfold sbind at 1, sunwrap at 1. destruct (gs_checkpoint e g) as [o g1]. cbn [fst snd] in *. subst o.
  pose proof (gs_commit_history e g1 HI (proj1 HL1)) as H. apply (history_trans_same e g g1) in H; auto.
  unfold sbind at 1, sunwrap. destruct (gs_commit e g1) as [[[l fp]|er|] g2] eqn:Ec; exact H.
Qed.

Lemma exec_history e en cl g : iterates e -> collision_free e -> engine_wf en ->
  live e g -> array_wf 20 (cl_target cl) -> bytes_ok (cl_input cl) -> history e g (snd (exec e en cl g)).
Proof.
  intros HI HC HE HL Ht Hin. unfold exec, load_template.
  unfold sbind at 1. destruct (@unwrap_read failure _ (account_load e (cl_target cl)) g (reads_load e _)) as [(a1 & E1 & R1)|[E1 R1]];
    rewrite R1; [|apply history_refl].
  unfold sbind at 1. destruct (@unwrap_read failure _ (account_template e (cl_target cl)) g) as [(t & E2 & R2)|[E2 R2]];
    [apply reads_bind; [apply reads_decode|intros; apply reads_ret]|rewrite R2|rewrite R2; apply history_refl].
  unfold sbind at 1. destruct (@unwrap_read failure _ (template_sections e t) g (reads_sections e t)) as [(l & E3 & R3)|[E3 R3]];
    rewrite R3; [|apply history_refl].
  unfold sbind at 1. rewrite R1.
  unfold sbind at 1. set (f := env_new a1 (cl_template cl) (cl_mode cl)).
  pose proof (load_addr _ _ _ _ E1) as Ea.
  destruct (run e en cl l f g) as [r1 g1] eqn:Er. apply run_cases in Er; auto; [|cbn; congruence].
  destruct Er as [HL1 Er].
  destruct r1 as [[[mem logs] f1]|er|]; [|exact (moves_hist _ _ _ _ _ Er)..].
  destruct Er as (_ & _ & M). destruct M as [[_ M1 M2 _] _].
  eapply history_trans_same; [exact M1|exact M2|]. now apply outcome_history.
Qed.

Lemma call_history e en m g : iterates e -> collision_free e -> engine_wf en -> live e g -> bytes_ok m ->
  history e g (snd (rt_call e en m g)).
Proof.
  intros HI HC HE HL Hm. unfold rt_call. destruct (decoded dec_transaction m) as [tx|] eqn:Ed; [|apply history_refl].
  assert (Hw : transaction_wf tx) by (eapply decoded_canon; eauto using transaction_canon). destruct Hw as [S1 S2 S3 S4 S5].
  unfold transact. destruct (build_call_reads e tx FullAccess (tx_func_name tx) (tx_calldata tx) g) as [(cl & -> & _ & _ & Et & Ei & _)| ->]; [|apply history_refl].
  unfold exec_call.
  pose proof (exec_history e en cl g HI HC HE HL) as K. rewrite Et, Ei in K. specialize (K S2 (proj2 S5)).
  destruct (exec e en cl g) as [[rc|[? ?]|] g1]; exact K.
Qed.

Lemma create_same e a name t b k g : iterates e -> collision_free e -> live e g ->
  array_wf 20 a -> string_wf 255 name -> array_wf 20 t -> uint_wf 64 b -> uint_wf 128 k ->
  let g' := snd (account_create e a name t b k g) in
  st_db (gs_storage g') = st_db (gs_storage g) /\ st_next_id (gs_storage g') = st_next_id (gs_storage g).
Proof.
  intros HI HC HL Ha Hn Ht Hb Hk. pose proof (live_typed e g HI HC HL) as HT. cbv zeta. unfold account_create, gbind.
  pose proof (reads_layout e t g) as RL.
  destruct (template_layout e t g) as [[lay|?|] g0]; cbn [snd] in *; subst g0; auto.
  destruct (write_account_effect e a name t b k g HC HT Ha Hn Ht Hb Hk) as (g1 & W & _ & O & F).
  rewrite W. cbn [gret snd]. destruct O; auto.
Qed.

Lemma spawn_history e en ev m c g : iterates e -> collision_free e -> hash_wf e -> engine_wf en -> live e g -> bytes_ok m ->
  history e g (snd (spawn e en ev m c g)).
Proof.
  intros HI HC HH HE HL Hm. unfold spawn.
  destruct (decoded dec_spawn m) as [sp|] eqn:Ed; [|apply history_refl].
  assert (Hsp : spawn_wf sp) by (eapply decoded_canon; eauto using spawn_canon).
  pose proof (reads_sections e (sp_template sp) g) as R1.
  destruct (template_sections e (sp_template sp) g) as [[sec|?|] g0]; cbn [snd] in R1; subst; try apply history_refl.
  pose proof (reads_exec_prefix sp sec g) as R2.
  destruct (ensure_ctor _ _ _ g) as [[[]|[? ?]|] g0]; cbn [snd] in R2; subst; try apply history_refl.
  destruct (check_gas_for_func _ _ _ _ _ _) as [[[n|]|] c']; try apply history_refl.
  destruct Hsp as [S1 S2 S3 S4 S5].
  assert (HA : array_wf 20 (account_addr e (sp_template sp))) by now apply addr_wf.
  pose proof (create_live e (account_addr e (sp_template sp)) (sp_name sp) (sp_template sp) 0 0 g HI HC HL HA S3 S2 eq_refl eq_refl) as HLc.
  destruct (create_same e (account_addr e (sp_template sp)) (sp_name sp) (sp_template sp) 0 0 g HI HC HL HA S3 S2 eq_refl eq_refl) as [C1 C2].
  destruct (account_create e (account_addr e (sp_template sp)) _ _ 0 0 g) as [r g1] eqn:Ec. cbn [snd] in *.
  destruct r as [a|?|]; [|now apply history_same..].
  unfold call_ctor. set (cl := mkCall _ _ _ _ _ _).
  assert (K : history e g (snd (exec e en cl g1))).
  { eapply history_trans_same; [exact C1|exact C2|]. apply exec_history; auto. apply S5. }
  unfold exec_call. destruct (exec e en cl g1) as [[rc|[? ?]|] g2]; exact K.
Qed.

Lemma step_history e en o g c : iterates e -> collision_free e -> hash_wf e -> engine_wf en ->
  live e g -> rop_wf o -> (forall l, o <> TRewind l) -> history e g (fst (run_rop e en o (g, c))).
Proof.
  intros HI HC HH HE HL Ho Hr. destruct o; cbn [run_rop fst rop_wf] in *.
  - destruct (deploy e ev message g) as [r g'] eqn:E. apply deploy_cases in E; auto. destruct E as (_ & E). cbn [snd].
    destruct E as [[_ ->]|[(_ & _ & ->)|(s & cs & _ & _ & _ & _ & _ & _ & O)]]; [apply history_refl..|eapply only_history; exact O].
  - pose proof (spawn_history e en ev message c g HI HC HH HE HL Ho) as K.
    now destruct (spawn e en ev message c g) as [[? ?] ?].
  - destruct (verify_pure e en message g) as [-> _]. apply history_refl.
  - now apply call_history.
  - destruct Ho as [Hs Hd]. destruct (transfer e src dst amount g) as [r g1] eqn:E. apply transfer_cases in E; auto.
    destruct E as (_ & M & _). exact (moves_hist _ _ _ _ _ M).
  - destruct (increase_balance e addr amount g) as [r g1] eqn:E. apply increase_cases in E; auto.
    destruct E as (_ & M & _). exact (moves_hist _ _ _ _ _ M).
  - destruct Ho as (H1 & H2 & H3 & H4 & H5). now apply history_same; apply create_same.
  - pose proof (gs_commit_history e g HI (proj1 HL)) as H. unfold rt_commit. now destruct (gs_commit e g) as [[?|?|] ?].
  - now destruct (Hr l).
Qed.

(** Going back to a layer. *)
Lemma rewind_cases e l g : iterates e -> live e g ->
  snd (rt_rewind l g) = g
  \/ (forall k, get e (gs_storage (snd (rt_rewind l g))) k None = get e (gs_storage g) k (Some (Z.of_N l)))
     /\ forall m, (forall k, get e (gs_storage (snd (rt_rewind l g))) k (Some m) = get e (gs_storage g) k (Some m))
                  \/ (forall k, get e (gs_storage (snd (rt_rewind l g))) k (Some m) = Panic).
Proof.
  intros HI [HR HP]. destruct (reachable_R e _ HI (gs_reachable_storage e g HR)) as [v H].
  assert (E : snd (rt_rewind l g) = snd (gs_rewind l g)) by (unfold rt_rewind; now destruct (gs_rewind l g) as [[?|?|] ?]).
  rewrite E. clear E. unfold gs_rewind, rewind. destruct (l <? 2 ^ 63); [|now left].
  destruct (Z.ltb_spec (Z.of_N l) (st_next_id (gs_storage g))) as [Hlt|]; [|left; now destruct g].
  destruct (st_dirty (gs_storage g)) eqn:ED; [|left; now destruct g]. right. cbn [snd lift gs_storage].
  rewrite (R_next _ _ H) in Hlt.
  pose proof (R_rewind _ _ (Z.of_N l) H (proj1 (R_dirty_nil _ _ H) ED) ltac:(lia)) as H'.
  set (s' := mkStorage _ _ _ _ _) in *.
  assert (Hlen : length (upto (Z.of_N l) v) = Z.to_nat (Z.of_N l + 3)).
  { unfold upto. rewrite firstn_length. unfold next_layer in Hlt. lia. }
  split.
  - intros k. unfold get. rewrite (R_get_now _ _ _ H'), (R_get_at _ _ _ _ H Hlt). unfold read_now, read_at. reflexivity.
  - intros m. unfold get. destruct (Z.leb_spec m (Z.of_N l)) as [Hm|Hm].
    + left. intros k. rewrite (R_get_at _ _ _ _ H) by lia. rewrite (R_get_at _ _ _ _ H').
      2:{ unfold next_layer. cbn [committed]. lia. }
      unfold read_at, upto. cbn [committed]. rewrite firstn_firstn. now replace (Nat.min (Z.to_nat (m + 3)) (Z.to_nat (Z.of_N l + 3))) with (Z.to_nat (m + 3)) by lia.
    + right. intros k. unfold get_by_hash. cbn [s' st_next_id]. destruct (Z.ltb_spec m (Z.of_N l + 1)); [lia|reflexivity].
Qed.

(** At most [t] coins now and at every layer. *)
Definition capped (e : env) (t : N) (g : gstate) : Prop :=
  live e g /\ at_most e t g /\ forall m, at_most e t (seen_at m g).

Lemma layer_view e g g' m : (forall k, get e (gs_storage g') k (Some (as_i64 m)) = get e (gs_storage g) k (Some (as_i64 m))) ->
  forall x, fst (account_balance e x (seen_at m g')) = fst (account_balance e x (seen_at m g)).
Proof. intros H x. apply balance_view. exact H. Qed.
Lemma layer_missing e g m : (forall k, get e (gs_storage g) k (Some (as_i64 m)) = Panic) -> forall x, vacant e (seen_at m g) x.
Proof.
  intros H x b. unfold account_balance, gbind at 1, read_and_decode, gbind, gs_get. cbn [seen_at gs_layer_param gs_storage option_map].
  rewrite H. discriminate.
Qed.

Lemma history_capped e t t' g g' : t <= t' -> history e g g' -> live e g' -> at_most e t' g' -> capped e t g -> capped e t' g'.
Proof.
  intros Ht HH HL' HA (HL & _ & HM). split; auto. split; auto. intros m. destruct (HH (as_i64 m)) as [H|[H|H]].
  - eapply at_most_same; [|eapply at_most_weaken; [exact Ht|exact (HM m)]]. intros x _. now apply layer_view.
  - eapply at_most_same; [|exact HA]. intros x _. apply balance_view. cbn [seen_at gs_layer_param gs_storage option_map].
    rewrite (proj2 HL'). exact H.
  - apply at_most_vacant. now apply layer_missing.
Qed.

Lemma as_i64_small l : l < 2 ^ 63 -> as_i64 l = Z.of_N l.
Proof. intros H. unfold as_i64. now destruct (N.ltb_spec l (2 ^ 63)); [|lia]. Qed.

Lemma rewind_capped e t g l : iterates e -> capped e t g -> capped e t (snd (rt_rewind l g)).
Proof.
  intros HI (HL & HA & HM). pose proof (rewind_live e l g HL) as HL'.
  assert (Hbig : 2 ^ 63 <= l -> snd (rt_rewind l g) = g).
  { intros H. unfold rt_rewind, gs_rewind. destruct (N.ltb_spec l (2 ^ 63)); [lia|reflexivity]. }
  destruct (N.le_gt_cases (2 ^ 63) l) as [H|Hl]; [rewrite (Hbig H); now split|].
  destruct (rewind_cases e l g HI HL) as [->|[H1 H2]]; [now split|].
  split; auto. split.
  - eapply at_most_same; [|exact (HM l)]. intros x _. apply balance_view. rewrite (proj2 HL').
    cbn [seen_at gs_layer_param gs_storage option_map]. now rewrite as_i64_small by auto.
  - intros m. destruct (H2 (as_i64 m)) as [H|H].
    + eapply at_most_same; [|exact (HM m)]. intros x _. now apply layer_view.
    + apply at_most_vacant. now apply layer_missing.
Qed.

Lemma step_capped e en o g c t : iterates e -> collision_free e -> hash_wf e -> engine_wf en -> contracts_no_self en ->
  rop_wf o -> no_self o -> capped e t g -> t <= u64_max ->
  capped e (t + issued_by e o g) (fst (run_rop e en o (g, c))).
Proof.
  intros HI HC HH HE HN Ho Hf HK Ht. pose proof HK as (HL & (l & HA & HS) & HM).
  assert (D : (exists l, o = TRewind l) \/ forall l, o <> TRewind l) by (destruct o; eauto; right; discriminate).
  destruct D as [[k ->]|Hr].
  - cbn [run_rop fst issued_by]. rewrite N.add_0_r. now apply rewind_capped.
  - assert (Hfw : forward o) by (split; auto; destruct o; auto; now destruct (Hr l0)).
    destruct (step_adds e en o g c l HI HC HH HE HN HL Ho Hfw HA ltac:(lia)) as (l' & HL' & HA' & _ & Hle & _).
    eapply (history_capped e t); [lia|now apply step_history|auto| |exact HK]. exists l'. split; auto. lia.
Qed.

Lemma history_run_capped e en ops : iterates e -> collision_free e -> hash_wf e -> engine_wf en -> contracts_no_self en ->
  Forall rop_wf ops -> Forall no_self ops -> forall g c t,
  capped e t g -> t + issued e en ops (g, c) <= u64_max ->
  capped e (t + issued e en ops (g, c)) (fst (run_rops e en ops (g, c))).
Proof.
  intros HI HC HH HE HN HW HF. induction HW as [|o ops Ho HW IH]; intros g c t HK HS; cbn [run_rops issued fst] in *.
  - now rewrite N.add_0_r.
  - inversion HF as [|? ? Hf HF']; subst.
    pose proof (step_capped e en o g c t HI HC HH HE HN Ho Hf HK ltac:(lia)) as K1.
    destruct (run_rop e en o (g, c)) as [g1 c1]. cbn [fst] in *.
    replace (t + (issued_by e o g + issued e en ops (g1, c1))) with (t + issued_by e o g + issued e en ops (g1, c1)) by lia.
    apply IH; auto. lia.
Qed.

Lemma genesis_capped e ts g : iterates e -> collision_free e ->
  Forall (fun t => array_wf 20 (fst t) /\ sections_wf (snd t)) ts -> gs_new e empty_db ts = Some g -> capped e 0 g.
Proof.
  intros HI HC Hts Hg. split; [eapply new_live; eauto|].
  assert (K : forall p, at_most e 0 (mkGstate (gs_storage g) p)).
  { intros p. exists []. split; [|reflexivity]. split; [constructor|]. split; [constructor|]. intros x b Hx Hb.
    now apply (no_account_balance e g p x (genesis_store e ts g HI HC Hts Hg) Hx b) in Hb. }
  split; [|intros m; apply K]. specialize (K (gs_layer_param g)). now destruct g.
Qed.

Lemma run_rops_reachable e en ops : Forall rop_wf ops -> forall g c, rt_reachable e en g c ->
  rt_reachable e en (fst (run_rops e en ops (g, c))) (snd (run_rops e en ops (g, c))).
Proof.
  induction 1 as [|o ops Ho _ IH]; intros g c H; cbn [run_rops]; auto.
  destruct (run_rop e en o (g, c)) as [g1 c1] eqn:E. apply IH. now apply (rr_op e en o g c).
Qed.

Lemma run_rops_reached e en ops g c g' c' : Forall rop_wf ops -> rt_reachable e en g c ->
  run_rops e en ops (g, c) = (g', c') -> rt_reachable e en g' c'.
Proof. intros HW HR E. pose proof (run_rops_reachable e en ops HW g c HR) as H. now rewrite E in H. Qed.

Lemma run_rops_app e en a b gc : run_rops e en (a ++ b) gc = run_rops e en b (run_rops e en a gc).
Proof. revert gc. induction a as [|o a IH]; intros gc; cbn [run_rops app]; auto. Qed.
