(** C117: what becomes of a transaction, cause by cause. *)
From Coq Require Import String.
From Coq Require Import List NArith ZArith Bool Lia.
From Verif Require Import Base Text CodecModel CodecSpec CodecProofs ReceiptModel LayoutModel SectionModel SectionSpec StorageModel StorageSpec.
From Verif Require Import GlobalModel GlobalSpec GlobalProofs RuntimeModel RuntimeSpec RuntimeProofs RuntimeProps.
From Verif Require Import ObserveSpec ObserveProofs ObserveProps FfiModel FfiSpec FfiProps MeterSpec MeterProps OutcomeSpec OutcomeProofs.
Import ListNotations.
Open Scope list_scope.
Open Scope N_scope.

(** A call is answered by exactly the receipts that [call_says] lists, with the state it lists: a
    receipt of failure names the first thing that went wrong, one of success carries what the
    function answered, and there is no receipt in any other case. *)
Theorem C117_call :
  forall e en m g rc g',
  rt_call e en m g = (Some rc, g') <-> exists tx, decoded dec_transaction m = Some tx /\ call_says e en tx g rc g'.
Proof. exact call_iff. Qed.
Print Assumptions C117_call.

(** A verification that succeeds has no receipt: it is answered exactly when "svm_verify" fails. *)
Theorem C117_verify :
  forall e en m g rc g',
  RuntimeModel.verify e en m g = (Some rc, g') <->
  exists tx a t ctors code err logs, decoded dec_transaction m = Some tx /\ account_at e g (tx_target tx) a t ctors code /\
    fails e en false a t ctors code (txt "svm_verify") (tx_verifydata tx) AccessDenied g err logs g' /\
    rc = mkCallReceipt 0 false (Some err) None None None [] logs.
Proof. exact verify_iff. Qed.
Print Assumptions C117_verify.

(** A spawn is answered by exactly the receipts that [spawn_says] lists. *)
Theorem C117_spawn :
  forall w known ops g c ev m rc g',
  iterates (w_env w) -> collision_free (w_env w) -> hash_wf (w_env w) -> engine_wf (w_engine w) -> addresses_differ (w_env w) known ->
  ObserveSpec.history (w_env w) (w_engine w) known ops g c -> bytes_ok m ->
  (exists c', spawn (w_env w) (w_engine w) ev m c g = (Some rc, c', g')) <->
  exists sp, decoded dec_spawn m = Some sp /\ spawn_says w ev m sp g rc g'.
Proof.
  intros w known ops g c ev m rc g' HI HC HH HE HD HS Hm.
  destruct (CacheProofs.history_invariant _ _ known HI HC HH HE HD ops g c HS) as (_ & HL & _).
  destruct (C82_cache_transparent _ _ known ops g c ev m HI HC HH HE HD HS Hm) as [K1 K2].
  rewrite <- (spawn_iff w ev m [] g rc g' HI HC HH HL Hm); [|intros ? ? ? ? _ _ [=]].
  destruct (spawn (w_env w) (w_engine w) ev m c g) as [[r1 c1] g1], (spawn (w_env w) (w_engine w) ev m [] g) as [[r2 c2] g2]. cbn [fst snd] in *. subst.
  split; intros (c' & [= -> _ ->]); eauto.
Qed.
Print Assumptions C117_spawn.

(** In every state that a node can reach, it is enough that the function returns: the call is then
    answered by a receipt of success. *)
Theorem C117_call_succeeds :
  forall e en g c m tx a t ctors code data logs touched g1,
  iterates e -> collision_free e -> hash_wf e -> engine_wf en -> rt_reachable e en g c -> bytes_ok m ->
  decoded dec_transaction m = Some tx -> account_at e g (tx_target tx) a t ctors code ->
  returns_from e en false a t ctors code (tx_func_name tx) (tx_calldata tx) FullAccess g data logs touched g1 ->
  exists state g', committed_as e g1 state g' /\
    rt_call e en m g = (Some (mkCallReceipt 0 true None (Some state) (Some data) None touched logs), g').
Proof.
  intros e en g c m tx a t ctors code data logs touched g1 HI HC HH HE HR Hm Ed A F.
  pose proof (rt_live e en g c HI HC HH HE HR) as HL.
  assert (Hw : transaction_wf tx) by (eapply decoded_canon; eauto using transaction_canon). destruct Hw as [S1 S2 S3 S4 S5].
  pose proof A as (La & _ & l & _ & EN & EC). pose proof (load_addr _ _ _ _ La) as Ea.
  assert (HL1 : live e g1).
  { eapply returns_live; [exact HI|exact HC|exact HE|exact HL| |exact (proj2 S5)|exact EN|exact EC|exact F]. rewrite Ea. exact S2. }
  destruct (commits_always e g1 HI HL1) as (state & g' & C). exists state, g'. split; [exact C|].
  apply call_iff. exists tx. split; [exact Ed|]. eapply says_done; eauto.
Qed.
Print Assumptions C117_call_succeeds.
Theorem C117_spawn_succeeds :
  forall w known ops g c ev m sp ctors code price a g1 data logs touched g2,
  iterates (w_env w) -> collision_free (w_env w) -> hash_wf (w_env w) -> engine_wf (w_engine w) -> addresses_differ (w_env w) known ->
  ObserveSpec.history (w_env w) (w_engine w) known ops g c -> bytes_ok m -> decoded dec_spawn m = Some sp ->
  deployed (w_env w) g (sp_template sp) ctors code -> In (sp_ctor sp) ctors ->
  template_price w g (sp_template sp) (sp_ctor sp) price -> affords (env_gas_limit ev) (1000 * nlen m + price) ->
  placed (w_env w) sp g a ctors code g1 ->
  returns_from (w_env w) (w_engine w) true a (sp_template sp) ctors code (sp_ctor sp) (sp_calldata sp) FullAccess g1 data logs touched g2 ->
  exists state g' c', committed_as (w_env w) g2 state g' /\
    spawn (w_env w) (w_engine w) ev m c g =
      (Some (mkSpawnReceipt 0 true None (Some (spawned_at (w_env w) (sp_template sp))) (Some state) (Some data) None
         (set_insert (env_principal ev) (set_insert (spawned_at (w_env w) (sp_template sp)) touched)) logs), c', g').
Proof.
  intros w known ops g c ev m sp ctors code price a g1 data logs touched g2 HI HC HH HE HD HS Hm Ed D Hin TP Af P F.
  destruct (CacheProofs.history_invariant _ _ known HI HC HH HE HD ops g c HS) as (_ & HL & _).
  pose proof (live_typed _ g HI HC HL) as HT.
  assert (Hsp : spawn_wf sp) by (eapply decoded_canon; eauto using spawn_canon). destruct Hsp as [S1 S2 S3 S4 S5].
  pose proof P as (a' & Ec & A). pose proof A as (La & _ & l & _ & EN & EC). pose proof (load_addr _ _ _ _ La) as Ea.
  assert (Hnew : array_wf 20 (spawned_at (w_env w) (sp_template sp))) by now apply addr_wf.
  assert (HL1 : live (w_env w) g1).
  { replace g1 with (snd (account_create (w_env w) (spawned_at (w_env w) (sp_template sp)) (sp_name sp) (sp_template sp) 0 0 g)) by now rewrite Ec.
    apply create_live; auto; reflexivity. }
  assert (HL2 : live (w_env w) g2).
  { eapply returns_live; [exact HI|exact HC|exact HE|exact HL1| |exact (proj2 S5)|exact EN|exact EC|exact F]. now rewrite Ea. }
  destruct (commits_always _ g2 HI HL2) as (state & g' & C). exists state, g'.
  assert (X : exists c', spawn (w_env w) (w_engine w) ev m c g =
      (Some (mkSpawnReceipt 0 true None (Some (spawned_at (w_env w) (sp_template sp))) (Some state) (Some data) None
         (set_insert (env_principal ev) (set_insert (spawned_at (w_env w) (sp_template sp)) touched)) logs), c', g')).
  { eapply C117_spawn; eauto. exists sp. split; [exact Ed|]. eapply spawn_done; eauto. }
  destruct X as (c' & X). eauto.
Qed.
Print Assumptions C117_spawn_succeeds.

(** The example world answers calls in both ways: "set" returns and "bad" traps, and a call of the
    constructor is refused.  It spawns when there is gas enough. *)
Definition ox_says (name : bytes) : option call_receipt * gstate := rt_call rx_env rx_engine (rx_call name) rx_state.
Definition ox_spawn : option spawn_receipt * price_cache * gstate :=
  spawn (w_env fx_world) (w_engine fx_world) (rx_envelope (Some 1000000)) (rx_spawn 1 (txt "init")) (snd (rx_run rx_ops (rx_start, []))) rx_state.
Lemma ox_history : ObserveSpec.history (w_env fx_world) (w_engine fx_world) ob_known rx_ops rx_state (snd (rx_run rx_ops (rx_start, []))).
Proof. exact (proj1 (proj2 C82_satisfiable)). Qed.
Lemma ox_success : option_map sr_success (fst (fst ox_spawn)) = Some true.
Proof. vm_compute. reflexivity. Qed.
Lemma ox_says_iff rc g' : (exists c', ox_spawn = (Some rc, c', g')) <->
  exists sp, decoded dec_spawn (rx_spawn 1 (txt "init")) = Some sp /\ spawn_says fx_world (rx_envelope (Some 1000000)) (rx_spawn 1 (txt "init")) sp rx_state rc g'.
Proof.
  apply (C117_spawn fx_world ob_known rx_ops rx_state (snd (rx_run rx_ops (rx_start, []))) (rx_envelope (Some 1000000)) (rx_spawn 1 (txt "init")) rc g');
        [exact rx_iterates|exact rx_collision_free|exact rx_hash_wf|exact rx_engine_wf|apply C82_satisfiable|exact ox_history|apply bytes_okb_ok; vm_compute; reflexivity].
Qed.
Lemma ox_spawns : exists sp rc g', decoded dec_spawn (rx_spawn 1 (txt "init")) = Some sp /\ sr_success rc = true /\
     spawn_says fx_world (rx_envelope (Some 1000000)) (rx_spawn 1 (txt "init")) sp rx_state rc g'.
Proof.
  pose proof ox_success as X. pose proof ox_says_iff as Y. generalize dependent ox_spawn. intros [[[rc|] c'] g'] X Y; [|discriminate X].
  cbn [fst option_map] in X. injection X as X. destruct (proj1 (Y rc g') (ex_intro _ c' eq_refl)) as (sp & Ed & H). exists sp, rc, g'. auto.
Qed.
Lemma ox_call_iff name rc g' : ox_says name = (Some rc, g') <-> exists tx, decoded dec_transaction (rx_call name) = Some tx /\ call_says rx_env rx_engine tx rx_state rc g'.
Proof. exact (call_iff rx_env rx_engine (rx_call name) rx_state rc g'). Qed.
Lemma ox_set : option_map cr_success (fst (ox_says (txt "set"))) = Some true.
Proof. vm_compute. reflexivity. Qed.
Lemma ox_bad : fst (ox_says (txt "bad")) = Some (mkCallReceipt 0 false (Some (FuncFailed rx_a (rx_taddr 1) (txt "bad") (txt "oops"))) None None None [] []).
Proof. vm_compute. reflexivity. Qed.
Lemma ox_init : fst (ox_says (txt "init")) = Some (mkCallReceipt 0 false (Some (FuncNotAllowed rx_a (rx_taddr 1) (txt "init") (txt "expected function not to be a constructor"))) None None None [] []).
Proof. vm_compute. reflexivity. Qed.
Lemma refused_unchanged e en tx g addr t func msg logs g' :
  call_says e en tx g (mkCallReceipt 0 false (Some (FuncNotAllowed addr t func msg)) None None None [] logs) g' -> g' = g.
Proof. intros H. inversion H as [? ? ? ? ? ? ? A F|]; subst. inversion F; subst; reflexivity. Qed.
Example C117_satisfiable :
  rt_reachable rx_env rx_engine rx_state (snd (rx_run rx_ops (rx_start, []))) /\
  (exists tx a t ctors code data logs touched g1 state g', decoded dec_transaction (rx_call (txt "set")) = Some tx /\ account_at rx_env rx_state (tx_target tx) a t ctors code /\
    returns_from rx_env rx_engine false a t ctors code (tx_func_name tx) (tx_calldata tx) FullAccess rx_state data logs touched g1 /\
    committed_as rx_env g1 state g') /\
  (exists tx err logs g', decoded dec_transaction (rx_call (txt "bad")) = Some tx /\
     call_says rx_env rx_engine tx rx_state (mkCallReceipt 0 false (Some (FuncFailed rx_a (rx_taddr 1) (txt "bad") err)) None None None [] logs) g') /\
  (exists tx msg, decoded dec_transaction (rx_call (txt "init")) = Some tx /\
     call_says rx_env rx_engine tx rx_state (mkCallReceipt 0 false (Some (FuncNotAllowed rx_a (rx_taddr 1) (txt "init") msg)) None None None [] []) rx_state) /\
  (exists sp rc g', decoded dec_spawn (rx_spawn 1 (txt "init")) = Some sp /\ sr_success rc = true /\
     spawn_says fx_world (rx_envelope (Some 1000000)) (rx_spawn 1 (txt "init")) sp rx_state rc g').
Proof.
  split; [exact rx_reachable|]. split; [|split; [|split]].
  - pose proof ox_set as X. pose proof (ox_call_iff (txt "set")) as Y. generalize dependent (ox_says (txt "set")). intros [[rc|] g'] X Y; [|discriminate X].
    cbn [fst option_map] in X. injection X as X. destruct (proj1 (Y rc g') eq_refl) as (tx & Ed & H).
    inversion H as [|a t ctors code data logs touched g1 state gx A F C]; subst; [discriminate X|].
    exists tx, a, t, ctors, code, data, logs, touched, g1, state, g'. auto.
  - pose proof ox_bad as X. pose proof (ox_call_iff (txt "bad")) as Y. generalize dependent (ox_says (txt "bad")). intros [r g'] X Y.
    cbn [fst] in X. subst r. destruct (proj1 (Y _ g') eq_refl) as (tx & Ed & H). eauto 10.
  - pose proof ox_init as X. pose proof (ox_call_iff (txt "init")) as Y. generalize dependent (ox_says (txt "init")). intros [r g'] X Y.
    cbn [fst] in X. subst r. destruct (proj1 (Y _ g') eq_refl) as (tx & Ed & H).
    pose proof (refused_unchanged _ _ _ _ _ _ _ _ _ _ H) as ->.
    exists tx, (txt "expected function not to be a constructor"). auto.
  - exact ox_spawns.
Qed.
