(** A call that succeeds depends on nothing but what its receipt lists. *)
From Coq Require Import String.
From Coq Require Import List NArith ZArith Bool Lia.
From Verif Require Import Base CodecModel CodecSpec CodecProofs ReceiptModel ReceiptProofs Text LayoutModel SectionModel.
From Verif Require Import SectionSpec SectionProofs StorageModel StorageSpec StorageProofs GlobalModel GlobalSpec GlobalProofs.
From Verif Require Import RuntimeModel RuntimeSpec RuntimeProofs RuntimeProps AlikeSpec AlikeProofs LocalSpec LocalProofs PayProps.
Import ListNotations.
Open Scope list_scope.
Open Scope N_scope.

(* ------------------------------------------------------------------------------------ *)
(** * C129 A successful call depends only on the accounts it touches *)

(** ** C129 Take a call that succeeds, and another state that may differ in the balances of
    accounts the receipt does not list as touched, in the variables of all accounts but the
    called one, and in its history.  There the call succeeds too, with the same receipt but
    for the fingerprint, and does the same to all that was the same. *)
Theorem C129_call_local :
  forall e en m tx g1 c1 g2 c2 rc g1',
  iterates e -> collision_free e -> hash_wf e -> engine_wf en -> bytes_ok m ->
  rt_reachable e en g1 c1 -> rt_reachable e en g2 c2 ->
  decoded dec_transaction m = Some tx ->
  rt_call e en m g1 = (Some rc, g1') -> cr_success rc = true ->
  same_for e (tx_target tx) (cr_touched rc) g1 g2 ->
  exists rc2 g2', rt_call e en m g2 = (Some rc2, g2') /\ but_state rc2 = but_state rc
    /\ same_for e (tx_target tx) (cr_touched rc) g1' g2'.
Proof.
  intros e en m tx g1 c1 g2 c2 rc g1' HI HC HH HE Hm R1 R2 Ed E Hs H.
  pose proof (rt_live e en g1 c1 HI HC HH HE R1) as L1. pose proof (rt_live e en g2 c2 HI HC HH HE R2) as L2.
  apply agree_same_for in H; auto.
  destruct (local_call e en m tx g1 g2 rc g1' HI HC HE L1 L2 Hm Ed H E Hs) as (rc2 & g2' & A & B & C & D1 & D2).
  exists rc2, g2'. split; [exact A|]. split; [exact B|]. now apply agree_same_for.
Qed.
Print Assumptions C129_call_local.

(** ** C129 In terms of balances and variables. *)
Theorem C129_call_local_values :
  forall e en m tx g1 c1 g2 c2 rc g1',
  iterates e -> collision_free e -> hash_wf e -> engine_wf en -> bytes_ok m ->
  rt_reachable e en g1 c1 -> rt_reachable e en g2 c2 ->
  decoded dec_transaction m = Some tx ->
  rt_call e en m g1 = (Some rc, g1') -> cr_success rc = true ->
  same_for e (tx_target tx) (cr_touched rc) g1 g2 ->
  (forall x, In x (cr_touched rc) -> balance e g1' x = balance e (snd (rt_call e en m g2)) x)
  /\ (forall a id, ac_addr a = tx_target tx ->
      fst (get_var_vec e a id g1') = fst (get_var_vec e a id (snd (rt_call e en m g2)))).
Proof.
  intros e en m tx g1 c1 g2 c2 rc g1' HI HC HH HE Hm R1 R2 Ed E Hs H.
  pose proof (rt_live e en g1 c1 HI HC HH HE R1) as L1. pose proof (rt_live e en g2 c2 HI HC HH HE R2) as L2.
  apply agree_same_for in H; auto.
  destruct (local_call e en m tx g1 g2 rc g1' HI HC HE L1 L2 Hm Ed H E Hs) as (rc2 & g2' & A & B & C & D1 & D2).
  rewrite A. cbn [snd]. split.
  - intros x Hx. unfold balance. now destruct (resl_balance e (tx_target tx) (cr_touched rc) x Hx g1' g2' C) as [-> _].
  - intros a id Ha.
    assert (V : @resl e (tx_target tx) (cr_touched rc) gs_error _ (get_var_vec e a id)).
    { unfold get_var_vec. apply resl_gbind; [apply resl_gsome|]. intros v. now apply resl_get_var. }
    now destruct (V g1' g2' C) as [-> _].
Qed.
Print Assumptions C129_call_local_values.

(** Two states that differ in the coins of a third account only. *)
Definition lo_c : bytes := repeat 9 20.
Definition lo_ops : list rop := py_ops ++ [TCreate lo_c (txt "carl") (rx_taddr 1) 1 0].
Definition lo_one : gstate := fst (py_run lo_ops (rx_start, [])).
Definition lo_two : gstate := fst (py_run (lo_ops ++ [TIncrease lo_c 5]) (rx_start, [])).
Lemma lo_ops_wf : Forall rop_wf (lo_ops ++ [TIncrease lo_c 5]).
Proof.
  assert (W : array_wf 20 lo_c) by (split; [reflexivity|apply bytes_okb_ok; reflexivity]).
  unfold lo_ops. rewrite <- app_assoc. apply Forall_app. split; [apply py_ops_wf|]. constructor; [|constructor; [exact W|constructor]].
  split; [exact W|]. split; [split; [split; [discriminate|apply bytes_okb_ok; reflexivity]|reflexivity]|].
  split; [split; [reflexivity|apply bytes_okb_ok; reflexivity]|]. split; reflexivity.
Qed.
Lemma lo_one_reachable : rt_reachable rx_env py_engine lo_one (snd (py_run lo_ops (rx_start, []))).
Proof.
  apply py_run_reachable; [apply (rr_new _ _ []); [constructor|]; vm_compute; reflexivity|].
  pose proof lo_ops_wf as W. apply Forall_app in W. apply W.
Qed.
Lemma lo_two_reachable : rt_reachable rx_env py_engine lo_two (snd (py_run (lo_ops ++ [TIncrease lo_c 5]) (rx_start, []))).
Proof. apply py_run_reachable; [apply (rr_new _ _ []); [constructor|]; vm_compute; reflexivity|apply lo_ops_wf]. Qed.

Lemma lo_upsert : lo_two = snd (gs_upsert rx_env (key_mutable lo_c)
  (match enc_account_mut (mkAccountMut 6 0) with Some b => b | None => [] end) lo_one).
Proof. vm_compute. reflexivity. Qed.
Lemma lo_other k : env_hash rx_env k <> env_hash rx_env (key_mutable lo_c) -> reads_same rx_env k lo_one lo_two.
Proof.
  intros H. rewrite lo_upsert. unfold reads_same. rewrite !gs_get_now. cbn [fst]. f_equal.
  unfold cur, get. cbn [gs_upsert snd gs_storage]. unfold upsert. rewrite get_upsert.
  destruct (bytes_eqb (env_hash rx_env k) (env_hash rx_env (key_mutable lo_c))) eqn:E; [|reflexivity].
  apply bytes_eqb_spec in E. contradiction.
Qed.
Lemma lo_key t : tkey_wf t -> t <> TMut lo_c -> reads_same rx_env (key_of t) lo_one lo_two.
Proof.
  intros W D. assert (Wc : tkey_wf (TMut lo_c)) by (split; [split; [reflexivity|apply bytes_okb_ok; reflexivity]|exact I]).
  apply lo_other. intros E. apply D. apply key_of_inj; auto. apply rx_collision_free; auto using tkey_storage.
Qed.
Lemma lo_same : same_for rx_env rx_a [rx_a; rx_b] lo_one lo_two.
Proof.
  split.
  - intros t Ht. split; [apply (lo_key (TCore t))|apply (lo_key (TNon t))]; try discriminate; now split.
  - intros a Ha. apply (lo_key (TImm a)); [now split|discriminate].
  - intros a [<-|[<-|[]]]; (apply (lo_key (TMut _)); [|discriminate]; split; [|exact I]); [apply rx_a_wf|apply rx_b_wf].
  - intros n _. apply lo_other. intros H. apply (f_equal (fun l => nth 0 l 0)) in H. lazy in H. discriminate H.
Qed.
Example C129_satisfiable :
  let (r, g1') := rt_call rx_env py_engine (rx_call (txt "pay")) lo_one in
  option_map tx_target (decoded dec_transaction (rx_call (txt "pay"))) = Some rx_a
  /\ option_map cr_success r = Some true /\ option_map cr_touched r = Some [rx_a; rx_b]
  /\ balance rx_env lo_one lo_c = 1 /\ balance rx_env lo_two lo_c = 6
  /\ balance rx_env g1' rx_a = 93 /\ balance rx_env (snd (rt_call rx_env py_engine (rx_call (txt "pay")) lo_two)) rx_a = 93.
Proof. vm_compute. repeat split; reflexivity. Qed.
