(** Proofs about the balance sheet of histories. *)
From Coq Require Import List NArith ZArith Bool Lia.
From Coq Require Import ZifyBool ZifyNat ZifyN.
From Verif Require Import Base CodecModel CodecSpec CodecProofs ReceiptModel ReceiptProofs LayoutModel LayoutSpec.
From Verif Require Import SectionModel SectionSpec SectionProofs SectionCanon.
From Verif Require Import StorageModel StorageSpec StorageProofs GlobalModel GlobalSpec GlobalProofs.
From Verif Require Import RuntimeModel RuntimeSpec RuntimeProofs SupplySpec SupplyProofs LedgerSpec.
Import ListNotations.
Open Scope N_scope.

(** After the step some list has all accounts; [n] coins were added and [lost] were lost. *)
Definition books (e : env) (l : list bytes) (s n lost : N) (g' : gstate) : Prop :=
  exists l', live e g' /\ all_accounts e g' l' /\ incl l l' /\ supply e g' l' + lost = s + n.

Lemma conserved_books e l s g' : conserved e l s g' -> books e l s 0 0 g'.
Proof. intros (H1 & H2 & H3). exists l. rewrite H3. split; auto. split; auto. split; [apply incl_refl|lia]. Qed.
Lemma adds_books e l s n g' : adds e l s n True g' -> books e l s n 0 g'.
Proof. intros (l' & H1 & H2 & H3 & _ & H4). exists l'. split; auto. split; auto. split; auto. rewrite H4; auto. lia. Qed.

Lemma account_write_books e l g g' a b : live e g' -> all_accounts e g l -> array_wf 20 a ->
  (forall x, array_wf 20 x -> x <> a -> fst (account_balance e x g') = fst (account_balance e x g)) ->
  fst (account_balance e a g') = Ok b ->
  books e l (supply e g l) b (balance e g a) g'.
Proof.
  intros HL' HA0 Ha HO HB. pose proof HA0 as (HN & HF & HA).
  assert (BX : forall x, array_wf 20 x -> x <> a -> balance e g' x = balance e g x) by (intros; unfold balance; now rewrite HO).
  assert (BA : balance e g' a = b) by (unfold balance; now rewrite HB).
  destruct (in_dec (list_eq_dec N.eq_dec) a l) as [Hin|Hin].
  - exists l. split; auto. rewrite Forall_forall in HF.
    pose proof (supply_change e g g' l a HN Hin (fun x Hx Hne => BX x (HF x Hx) Hne)) as Q. rewrite BA in Q.
    split; [|split; [apply incl_refl|exact Q]].
    split; auto. split; [now apply Forall_forall|]. intros x b' Hx Hb'. destruct (list_eq_dec N.eq_dec x a) as [->|Hne]; auto.
    apply (HA x b'); auto. now rewrite <- HO.
  - destruct (account_write_adds e l g g' a b HL' HA0 Ha HO HB) as (l' & A1 & A2 & A3 & _ & A4).
    assert (HV : vacant e g a) by (intros x Hx; now apply Hin, (HA a x)).
    exists l'. split; auto. split; auto. split; auto. rewrite (A4 HV).
    assert (balance e g a = 0) by (unfold balance; destruct (fst (account_balance e a g)) eqn:E; auto; now apply HV in E). lia.
Qed.

Lemma create_books e a name t b k g l r g' : iterates e -> collision_free e -> live e g -> all_accounts e g l ->
  array_wf 20 a -> string_wf 255 name -> array_wf 20 t -> uint_wf 64 b -> uint_wf 128 k ->
  account_create e a name t b k g = (r, g') ->
  (g' = g /\ forall x, r <> Ok x) \/ ((exists x, r = Ok x) /\ books e l (supply e g l) b (balance e g a) g').
Proof.
  intros HI HC HL HA Ha Hn Ht Hb Hk E.
  pose proof (create_live e a name t b k g HI HC HL Ha Hn Ht Hb Hk) as HL'. rewrite E in HL'. cbn [snd] in HL'.
  pose proof (live_typed e g HI HC HL) as HT. unfold account_create, gbind in E.
  pose proof (reads_layout e t g) as RL.
  destruct (template_layout e t g) as [[lay|?|] g0]; cbn [snd] in RL; subst g0;
    [|injection E as <- <-; left; split; [auto|discriminate]..].
  destruct (write_account_effect e a name t b k g HC HT Ha Hn Ht Hb Hk) as (g1 & W & _ & O & F).
  rewrite W in E. cbn [gret] in E. injection E as <- <-. right. split; [eauto|].
  specialize (F (proj2 HL)). unfold fields_of in F. injection F as _ _ F _.
  apply (account_write_books e l g g1 a b); auto.
  intros x Hx Hne. eapply only_balance; [exact O|auto|]. intros [Q|Q]; congruence.
Qed.

Lemma spawn_books e en ev m c g l : iterates e -> collision_free e -> hash_wf e -> engine_wf en -> contracts_no_self en ->
  live e g -> bytes_ok m -> all_accounts e g l -> supply e g l <= u64_max ->
  let g' := snd (spawn e en ev m c g) in
  exists n, ((g' = g /\ n = 0) \/ exists sp, decoded dec_spawn m = Some sp /\ n = balance e g (account_addr e (sp_template sp)))
  /\ books e l (supply e g l) 0 n g'.
Proof.
  intros HI HC HH HE HN HL Hm HA HS. cbv zeta. unfold spawn.
  assert (HK : exists n, ((g = g /\ n = 0) \/ exists sp, decoded dec_spawn m = Some sp /\ n = balance e g (account_addr e (sp_template sp)))
    /\ books e l (supply e g l) 0 n g).
  { exists 0. split; [auto|]. apply conserved_books. now split. }
  destruct (decoded dec_spawn m) as [sp|] eqn:Ed; [|exact HK].
  assert (Hsp : spawn_wf sp) by (eapply decoded_canon; eauto using spawn_canon).
  pose proof (reads_sections e (sp_template sp) g) as R1.
  destruct (template_sections e (sp_template sp) g) as [[sec|?|] g0]; cbn [snd] in R1; subst; try exact HK.
  pose proof (reads_exec_prefix sp sec g) as R2.
  destruct (ensure_ctor _ _ _ g) as [[[]|[? ?]|] g0]; cbn [snd] in R2; subst; try exact HK.
  destruct (check_gas_for_func _ _ _ _ _ _) as [[[n|]|] c']; try exact HK.
  destruct (account_create e (account_addr e (sp_template sp)) _ _ 0 0 g) as [r g1] eqn:Ec.
  destruct Hsp as [S1 S2 S3 S4 S5].
  apply (create_books e _ _ _ 0 0 g l) in Ec; auto; try reflexivity; [|now apply addr_wf].
  destruct Ec as [[-> Hr]|[[a ->] (l' & HL' & HA' & Hi & Heq)]].
  { destruct r as [x|?|]; [now destruct (Hr x)|exact HK..]. }
  unfold call_ctor. set (cl := mkCall _ _ _ _ _ _).
  assert (K : conserved e l' (supply e g1 l') (snd (exec e en cl g1))).
  { apply exec_supply; auto; [lia|now split|cbn; now apply addr_wf|apply S5]. }
  exists (balance e g (account_addr e (sp_template sp))). split; [right; now exists sp|].
  assert (K' : books e l (supply e g l) 0 (balance e g (account_addr e (sp_template sp))) (snd (exec e en cl g1))).
  { destruct K as (K1 & K2 & K3). exists l'. rewrite K3. split; auto. }
  unfold exec_call. destruct (exec e en cl g1) as [[rc|[? ?]|] g2]; exact K'.
Qed.

(** The balance of one account goes from [b] to [b']. *)
Lemma one_books e l g g' a b b' n lost : live e g' -> all_accounts e g l -> array_wf 20 a ->
  (forall x, array_wf 20 x -> x <> a -> fst (account_balance e x g') = fst (account_balance e x g)) ->
  fst (account_balance e a g) = Ok b -> fst (account_balance e a g') = Ok b' -> b' + lost = b + n ->
  books e l (supply e g l) n lost g'.
Proof.
  intros HL' HA Ha HO HB HB' Hn. destruct (account_write_books e l g g' a b' HL' HA Ha HO HB') as (l' & A1 & A2 & A3 & A4).
  assert (balance e g a = b) by (unfold balance; now rewrite HB).
  exists l'. split; auto. split; auto. split; auto. lia.
Qed.

Lemma transfer_books e en src dst amount g c l : iterates e -> collision_free e -> live e g ->
  array_wf 20 src -> array_wf 20 dst -> all_accounts e g l -> supply e g l <= u64_max ->
  exists n, loses e en (TTransfer src dst amount) (g, c) n
  /\ books e l (supply e g l) (made_by e (TTransfer src dst amount) g) n (snd (transfer e src dst amount g)).
Proof.
  intros HI HC HL Hs Hd HA HS. unfold loses, made_by. cbn [run_rop fst].
  destruct (list_eq_dec N.eq_dec src dst) as [<-|Hne].
  - destruct (transfer e src src amount g) as [r g'] eqn:E. apply transfer_cases in E; auto.
    destruct E as (HL' & M & K). cbn [fst snd].
    assert (MO : forall x, array_wf 20 x -> x <> src -> fst (account_balance e x g') = fst (account_balance e x g)).
    { intros x Hx Hn. eapply moves_balance; [exact M|auto|]. intros [?|?]; auto. }
    destruct r as [[]|?|]; [|contradiction|].
    + destruct K as (bs & bd & B1 & B2 & L1 & L2 & B3 & _). exists 0. split; auto.
      eapply one_books; eauto. lia.
    + destruct K as [[-> K]|(bs & bd & B1 & B2 & L1 & L2 & B3)].
      * exists 0. split; auto. apply conserved_books. now split.
      * exists amount. assert (balance e g src = bs) by (unfold balance; now rewrite B1).
        rewrite B1 in B2. injection B2 as <-. split; [right; repeat split; lia|].
        eapply one_books; eauto. lia.
  - exists 0. destruct (transfers_supply e [(src, dst, amount)] l HI HC) with (g := g) as [K1 K2]; auto.
    cbn [run_transfers] in *.
    destruct (transfer e src dst amount g) as [r g1] eqn:E. apply transfer_cases in E; auto. destruct E as (HL' & M & K). cbn [fst snd] in *.
    split; [|now apply conserved_books; split].
    destruct r as [[]|?|]; auto; [contradiction|]. left.
    destruct K as [[-> K]|(bs & bd & B1 & B2 & L1 & L2 & B3)]; auto. exfalso.
    (* the receiver would own more than there is *)
    destruct HA as (HN & HF & HA). pose proof (HA _ _ Hs B1) as I1. pose proof (HA _ _ Hd B2) as I2.
    assert (P : bs + bd <= supply e g l).
    { assert (Q1 : balance e g src = bs) by (unfold balance; now rewrite B1).
      assert (Q2 : balance e g dst = bd) by (unfold balance; now rewrite B2).
      rewrite <- Q1, <- Q2. clear - HN I1 I2 Hne.
      assert (One : forall k x, In x k -> balance e g x <= supply e g k).
      { induction k as [|y k IH]; intros x Hx; [destruct Hx|]. cbn [supply]. destruct Hx as [->|Hx]; [lia|]. specialize (IH x Hx). lia. }
      induction l as [|y l IH]; [destruct I1|]. cbn [supply]. inversion HN; subst.
      destruct I1 as [->|I1], I2 as [->|I2]; [congruence|apply One in I2; lia|apply One in I1; lia|].
      specialize (IH ltac:(auto) I1 I2). lia. }
    lia.
Qed.

Lemma step_books e en o g c l : iterates e -> collision_free e -> hash_wf e -> engine_wf en -> contracts_no_self en ->
  live e g -> rop_wf o -> no_rewind o -> all_accounts e g l -> supply e g l <= u64_max ->
  exists n, loses e en o (g, c) n /\ books e l (supply e g l) (made_by e o g) n (fst (run_rop e en o (g, c))).
Proof.
  intros HI HC HH HE HN HL Ho Hf HA HS.
  assert (EASY : forward o -> (fresh_place e o g) -> loses e en o (g, c) 0 -> made_by e o g = issued_by e o g ->
    exists n, loses e en o (g, c) n /\ books e l (supply e g l) (made_by e o g) n (fst (run_rop e en o (g, c)))).
  { intros H1 H2 H3 ->. exists 0. split; auto. apply adds_books.
    destruct (step_adds e en o g c l HI HC HH HE HN HL Ho H1 HA HS) as (l' & K). exists l'. intuition. }
  destruct o; try (apply EASY; [split; exact Logic.I|exact Logic.I|reflexivity|reflexivity]).
  - cbn [rop_wf] in Ho. destruct (spawn_books e en ev message c g l) as (n & K1 & K2); auto.
    exists n. unfold loses. cbn [run_rop fst made_by issued_by] in *.
    destruct (spawn e en ev message c g) as [[? ?] ?]. cbn [fst snd] in *. auto.
  - destruct Ho. now apply transfer_books.
  - destruct Ho as (H1 & H2 & H3 & H4 & H5). unfold loses. cbn [run_rop fst made_by issued_by].
    destruct (account_create e addr name taddr balance counter g) as [r g'] eqn:E. cbn [fst snd].
    apply (create_books e _ _ _ _ _ g l) in E; auto. destruct E as [[-> Hr]|[[x ->] K]].
    + exists 0. destruct r as [x|?|]; [now destruct (Hr x)|split; auto; apply conserved_books; now split..].
    + eexists. split; [reflexivity|exact K].
  - contradiction.
Qed.

Lemma history_books e en ops : iterates e -> collision_free e -> hash_wf e -> engine_wf en -> contracts_no_self en ->
  Forall rop_wf ops -> Forall no_rewind ops -> forall g c l,
  live e g -> all_accounts e g l -> supply e g l + made e en ops (g, c) <= u64_max ->
  exists n, loses_over e en ops (g, c) n
  /\ books e l (supply e g l) (made e en ops (g, c)) n (fst (run_rops e en ops (g, c))).
Proof.
  intros HI HC HH HE HN HW HF. induction HW as [|o ops Ho HW IH]; intros g c l HL HA HS; cbn [run_rops made loses_over fst] in *.
  - exists 0. split; auto. apply conserved_books. now split.
  - inversion HF as [|? ? Hf HF']; subst.
    destruct (step_books e en o g c l HI HC HH HE HN HL Ho Hf HA ltac:(lia)) as (n1 & Hn1 & l1 & HL1 & HA1 & Hi1 & Heq1).
    destruct (run_rop e en o (g, c)) as [g1 c1]. cbn [fst] in *.
    destruct (IH HF' g1 c1 l1 HL1 HA1 ltac:(lia)) as (n2 & Hn2 & l2 & HL2 & HA2 & Hi2 & Heq2).
    exists (n1 + n2). split; [now exists n1, n2|].
    exists l2. split; auto. split; auto. split; [eapply incl_tran; eauto|]. lia.
Qed.

Lemma step_capped_made e en o g c t : iterates e -> collision_free e -> hash_wf e -> engine_wf en -> contracts_no_self en ->
  rop_wf o -> capped e t g -> t <= u64_max ->
  capped e (t + made_by e o g) (fst (run_rop e en o (g, c))).
Proof.
  intros HI HC HH HE HN Ho HK Ht. pose proof HK as (HL & (l & HA & HS) & HM).
  assert (D : (exists l, o = TRewind l) \/ no_rewind o) by (destruct o; eauto; right; exact Logic.I).
  destruct D as [[k ->]|Hr].
  - cbn [run_rop fst made_by issued_by]. rewrite N.add_0_r. now apply rewind_capped.
  - destruct (step_books e en o g c l HI HC HH HE HN HL Ho Hr HA ltac:(lia)) as (n & _ & l' & HL' & HA' & _ & Heq).
    eapply (history_capped e t); [lia|apply step_history; auto; now intros k ->|auto| |exact HK]. exists l'. split; auto. lia.
Qed.

Lemma history_capped_made e en ops : iterates e -> collision_free e -> hash_wf e -> engine_wf en -> contracts_no_self en ->
  Forall rop_wf ops -> forall g c t,
  capped e t g -> t + made e en ops (g, c) <= u64_max ->
  capped e (t + made e en ops (g, c)) (fst (run_rops e en ops (g, c))).
Proof.
  intros HI HC HH HE HN HW. induction HW as [|o ops Ho HW IH]; intros g c t HK HS; cbn [run_rops made fst] in *.
  - now rewrite N.add_0_r.
  - pose proof (step_capped_made e en o g c t HI HC HH HE HN Ho HK ltac:(lia)) as K1.
    destruct (run_rop e en o (g, c)) as [g1 c1]. cbn [fst] in *.
    replace (t + (made_by e o g + made e en ops (g1, c1))) with (t + made_by e o g + made e en ops (g1, c1)) by lia.
    apply IH; auto. lia.
Qed.
