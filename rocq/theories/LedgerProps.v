(** C106: the balance sheet of whole histories. *)
From Coq Require Import String.
From Coq Require Import List NArith ZArith Bool Lia.
From Coq Require Import ZifyBool ZifyNat ZifyN.
From Verif Require Import Base CodecModel CodecSpec CodecProofs ReceiptModel LayoutModel SectionModel SectionSpec.
From Verif Require Import StorageModel StorageSpec StorageProofs StorageProps Text GlobalModel GlobalSpec GlobalProofs.
From Verif Require Import RuntimeModel RuntimeSpec RuntimeProofs RuntimeProps SupplySpec SupplyProofs SupplyProps LedgerSpec LedgerProofs.
From Verif Require Import AdminSpec AdminProps.
Import ListNotations.
Open Scope list_scope.
Open Scope N_scope.

(** Without the condition that accounts are created at vacant addresses, and with accounts
    that pay themselves: in every history without rewinds, what the accounts own at the end
    plus what was lost is what they owned before plus what was made.  Coins are made only by
    increases, creations and payments to oneself.  They are lost only where an account is
    replaced by a new one, which loses exactly what it owned, and where a payment to oneself
    aborts on overflow, which loses exactly the amount.  Left out: rewinds, and contracts that
    pay an account from itself. *)
Theorem C106_balance_sheet_partial :
  forall e en g c ops g' c' accounts,
  iterates e -> collision_free e -> hash_wf e -> engine_wf en -> contracts_no_self en ->
  rt_reachable e en g c -> Forall rop_wf ops -> Forall no_rewind ops ->
  run_rops e en ops (g, c) = (g', c') ->
  all_accounts e g accounts -> supply e g accounts + made e en ops (g, c) <= u64_max ->
  exists accounts' lost,
    all_accounts e g' accounts' /\ incl accounts accounts' /\ loses_over e en ops (g, c) lost
    /\ supply e g' accounts' + lost = supply e g accounts + made e en ops (g, c).
Proof.
  intros e en g c ops g' c' l HI HC HH HE HN HR HW HF HE' HA HS. pose proof (rt_live e en g c HI HC HH HE HR) as HL.
  destruct (history_books e en ops HI HC HH HE HN HW HF g c l HL HA HS) as (n & Hn & l' & _ & HA' & Hi & Heq).
  rewrite HE' in *. exists l', n. split; auto.
Qed.
Print Assumptions C106_balance_sheet_partial.

(** The history of [C106_satisfiable]; then the account pays itself 20 coins, and its template
    is spawned again.  Made: 157 and 20.  Lost: the 125 coins of the account. *)
Definition lx_ops : list rop :=
  px_ops ++ [TTransfer rx_a rx_a 20; TSpawn (rx_envelope None) (rx_spawn 1 (txt "init"))].
Definition lx_end : gstate := fst (run_rops rx_env px_engine lx_ops (rx_start, no_prices)).
Lemma lx_made : made rx_env px_engine lx_ops (rx_start, no_prices) = 177.
Proof. vm_compute. reflexivity. Qed.
Lemma lx_a : fst (account_balance rx_env rx_a lx_end) = Ok 0.
Proof. vm_compute. reflexivity. Qed.
Lemma lx_b : fst (account_balance rx_env rx_b lx_end) = Ok 52.
Proof. vm_compute. reflexivity. Qed.
Lemma lx_lost : loses_over rx_env px_engine lx_ops (rx_start, no_prices) 125.
Proof.
  unfold lx_ops, px_ops. cbn [app loses_over].
  exists 0, 125. split; [reflexivity|]. split; [|reflexivity].
  exists 0, 125. split. { right. eexists. split; [vm_compute; reflexivity|vm_compute; reflexivity]. } split; [|reflexivity].
  exists 0, 125. split; [vm_compute; reflexivity|]. split; [|reflexivity].
  exists 0, 125. split; [reflexivity|]. split; [|reflexivity].
  exists 0, 125. split; [reflexivity|]. split; [|reflexivity].
  exists 0, 125. split; [vm_compute; reflexivity|]. split; [|reflexivity].
  exists 0, 125. split; [reflexivity|]. split; [|reflexivity].
  exists 0, 125. split; [vm_compute; reflexivity|]. split; [|reflexivity].
  exists 125, 0. split. { right. eexists. split; [vm_compute; reflexivity|vm_compute; reflexivity]. } split; reflexivity.
Qed.
Example C106_balance_sheet_satisfiable :
  Forall rop_wf lx_ops /\ Forall no_rewind lx_ops /\ contracts_no_self px_engine
  /\ rt_reachable rx_env px_engine rx_start no_prices /\ all_accounts rx_env rx_start []
  /\ made rx_env px_engine lx_ops (rx_start, no_prices) = 177
  /\ loses_over rx_env px_engine lx_ops (rx_start, no_prices) 125
  /\ fst (account_balance rx_env rx_a lx_end) = Ok 0 /\ fst (account_balance rx_env rx_b lx_end) = Ok 52.
Proof.
  split.
  { apply Forall_app. split; [exact px_ops_wf|]. constructor; [split; apply rx_a_wf|]. constructor; [|constructor].
    cbn [rop_wf]. apply bytes_okb_ok. vm_compute. reflexivity. }
  split; [repeat constructor|]. split; [exact px_no_self|]. split; [exact px_start_reachable|].
  split; [apply (genesis_accounts rx_env []); [apply rx_iterates|apply rx_collision_free|constructor|vm_compute; reflexivity]|].
  split; [exact lx_made|]. split; [exact lx_lost|]. split; [exact lx_a|exact lx_b].
Qed.

(** A rewind that succeeds leaves the accounts together with exactly what they owned at the
    layer it goes back to; one that is refused or aborts changes nothing. *)
Theorem C106_rewound :
  forall e en g c layer r g',
  iterates e -> collision_free e -> hash_wf e -> engine_wf en -> rt_reachable e en g c ->
  rt_rewind layer g = (r, g') ->
  match r with
  | Ok _ => forall accounts,
      supply e g' accounts = supply e (at_layer (Some layer) g) accounts
      /\ (all_accounts e g' accounts <-> all_accounts e (at_layer (Some layer) g) accounts)
  | _ => g' = g
  end.
Proof.
  intros e en g c layer r g' HI HC HH HE HR E.
  destruct (C125_rewind_exactly e en g c layer HI HC HH HE HR) as [Y N0].
  assert (CASES : (layer < 2 ^ 63 /\ committed_layer g layer) \/ (2 ^ 63 <= layer \/ ~ committed_layer g layer)).
  { destruct (N.lt_ge_cases layer (2 ^ 63)) as [L|L]; [|auto].
    unfold committed_layer. destruct (fst (gs_current_layer g)) as [[n fp]|?|].
    - destruct (N.le_gt_cases layer n); [left; split; eauto|right; right; intros (n' & fp' & [= <- <-] & ?); lia].
    - right. right. intros (? & ? & [=] & _).
    - right. right. intros (? & ? & [=] & _). }
  destruct CASES as [[L1 L2]|L].
  - specialize (Y L1 L2). destruct (has_uncommitted_changes (gs_storage g)).
    + rewrite E in Y. injection Y as -> ->. reflexivity.
    + destruct Y as (g1 & Y & F & _). rewrite E in Y. injection Y as -> ->. intros l.
      assert (B : forall x, fst (account_balance e x g1) = fst (account_balance e x (at_layer (Some layer) g))).
      { intros x. specialize (F x). unfold fields_of in F. now injection F. }
      split.
      * apply supply_same. intros x _. unfold balance. now rewrite B.
      * unfold all_accounts. split; intros (H1 & H2 & H3); (split; [exact H1|]; split; [exact H2|]); intros x b Hx Hb; apply (H3 x b Hx);
          [rewrite B|rewrite <- B]; exact Hb.
  - specialize (N0 L). rewrite E in N0. injection N0 as -> ->. reflexivity.
Qed.
Print Assumptions C106_rewound.

(** The history of [C106_satisfiable] and one more call, which commits all that was pending.
    Going back to layer 0, before the second account was created, then succeeds. *)
Definition lx_committed : gstate := fst (run_rops rx_env px_engine (px_ops ++ [TCall (rx_call (txt "pay"))]) (rx_start, no_prices)).
Example C106_rewound_satisfiable :
  fst (rt_rewind 0 lx_committed) = Ok tt
  /\ balance rx_env (at_layer (Some 0) lx_committed) rx_b = 0 /\ balance rx_env lx_committed rx_b = 57
  /\ fst (rt_rewind 7 lx_committed) = Panic.
Proof. split; [vm_compute; reflexivity|]. split; [vm_compute; reflexivity|]. split; vm_compute; reflexivity. Qed.

(** And in every history whatever of a runtime, with rewinds, respawns and accounts that pay
    themselves, all accounts together never own more than was made: neither now nor at any
    layer.  Left out: contracts that pay an account from itself. *)
Theorem C106_never_more_than_made_partial :
  forall e en ts g ops g' c',
  iterates e -> collision_free e -> hash_wf e -> engine_wf en -> contracts_no_self en ->
  Forall (fun t => array_wf 20 (fst t) /\ sections_wf (snd t)) ts -> gs_new e empty_db ts = Some g ->
  Forall rop_wf ops -> run_rops e en ops (g, no_prices) = (g', c') ->
  made e en ops (g, no_prices) <= u64_max ->
  (exists accounts, all_accounts e g' accounts /\ supply e g' accounts <= made e en ops (g, no_prices))
  /\ forall layer, exists accounts, all_accounts e (at_layer (Some layer) g') accounts
       /\ supply e (at_layer (Some layer) g') accounts <= made e en ops (g, no_prices).
Proof.
  intros e en ts g ops g' c' HI HC HH HE HN Hts Hg HW HR HS.
  pose proof (genesis_capped e ts g HI HC Hts Hg) as HK.
  destruct (history_capped_made e en ops HI HC HH HE HN HW g no_prices 0 HK HS) as (_ & K1 & K2).
  rewrite HR in *. split; [exact K1|exact K2].
Qed.
Print Assumptions C106_never_more_than_made_partial.

(** The history of [C106_balance_sheet_satisfiable], and going back to layer 0. *)
Example C106_never_more_than_made_satisfiable :
  Forall rop_wf (lx_ops ++ [TRewind 0]) /\ gs_new rx_env empty_db [] = Some rx_start
  /\ made rx_env px_engine (lx_ops ++ [TRewind 0]) (rx_start, no_prices) = 177
  /\ balance rx_env (fst (run_rops rx_env px_engine (lx_ops ++ [TRewind 0]) (rx_start, no_prices))) rx_b = 0.
Proof.
  split; [apply Forall_app; split; [apply C106_balance_sheet_satisfiable|constructor; [exact Logic.I|constructor]]|].
  split; [vm_compute; reflexivity|]. split; vm_compute; reflexivity.
Qed.
