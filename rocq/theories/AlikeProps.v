(** Two nodes whose contents read the same answer the same and stay the same, however
    differently they got there. *)
From Coq Require Import String.
From Coq Require Import List NArith ZArith Bool Lia.
From Verif Require Import Base CodecModel CodecSpec CodecProofs ReceiptModel ReceiptProofs Text LayoutModel SectionModel.
From Verif Require Import SectionSpec SectionProofs StorageModel StorageSpec StorageProofs GlobalModel GlobalSpec GlobalProofs.
From Verif Require Import RuntimeModel RuntimeSpec RuntimeProofs RuntimeProps AlikeSpec AlikeProofs PayProps.
Import ListNotations.
Open Scope list_scope.
Open Scope N_scope.

(* ------------------------------------------------------------------------------------ *)
(** * C128 The answer depends on the contents only *)

(** ** C128 A call in two reachable states with the same contents gives the same receipt
    (but for the fingerprint), or aborts in both, and leaves the same contents. *)
Theorem C128_call_alike :
  forall e en m g1 c1 g2 c2,
  iterates e -> collision_free e -> hash_wf e -> engine_wf en -> bytes_ok m ->
  rt_reachable e en g1 c1 -> rt_reachable e en g2 c2 -> same_contents e g1 g2 ->
  option_map but_state (fst (rt_call e en m g1)) = option_map but_state (fst (rt_call e en m g2))
  /\ same_contents e (snd (rt_call e en m g1)) (snd (rt_call e en m g2)).
Proof.
  intros e en m g1 c1 g2 c2 HI HC HH HE Hm R1 R2 H.
  pose proof (rt_live e en g1 c1 HI HC HH HE R1) as L1. pose proof (rt_live e en g2 c2 HI HC HH HE R2) as L2.
  apply same_contents_now in H; auto. destruct (call_alike e en HI HC HE m g1 g2 L1 L2 Hm H) as [X Y]. split; [exact X|].
  apply same_contents_now; [| |exact Y].
  - apply (rt_live e en _ c1); auto. now apply (rr_op e en (TCall m) g1 c1).
  - apply (rt_live e en _ c2); auto. now apply (rr_op e en (TCall m) g2 c2).
Qed.
Print Assumptions C128_call_alike.

(** ** C128 So does a spawn, if the prices known are the same too. *)
Theorem C128_spawn_alike :
  forall e en ev m c g1 g2 r1 c1 g1' r2 c2 g2',
  iterates e -> collision_free e -> hash_wf e -> engine_wf en -> bytes_ok m ->
  rt_reachable e en g1 c -> rt_reachable e en g2 c -> same_contents e g1 g2 ->
  spawn e en ev m c g1 = (r1, c1, g1') -> spawn e en ev m c g2 = (r2, c2, g2') ->
  option_map but_init_state r1 = option_map but_init_state r2 /\ c1 = c2 /\ same_contents e g1' g2'.
Proof.
  intros e en ev m c g1 g2 r1 c1 g1' r2 c2 g2' HI HC HH HE Hm R1 R2 H E1 E2.
  pose proof (rt_live e en g1 c HI HC HH HE R1) as L1. pose proof (rt_live e en g2 c HI HC HH HE R2) as L2.
  apply same_contents_now in H; auto. pose proof (spawn_alike e en HI HC HE ev m c g1 g2 HH L1 L2 Hm H) as X.
  pose proof (spawn_live e en ev m c g1 HI HC HH HE L1 Hm) as K1. pose proof (spawn_live e en ev m c g2 HI HC HH HE L2 Hm) as K2.
  rewrite E1, E2 in *. cbn [snd] in *. destruct X as (X & Y & Z). split; [exact X|]. split; [exact Y|]. now apply same_contents_now.
Qed.
Print Assumptions C128_spawn_alike.

(** ** C128 The other transactions answer the same, whole. *)
Theorem C128_answers_alike :
  forall e en g1 c1 g2 c2,
  iterates e -> collision_free e -> hash_wf e -> engine_wf en ->
  rt_reachable e en g1 c1 -> rt_reachable e en g2 c2 -> same_contents e g1 g2 ->
  (forall ev m, fst (deploy e ev m g1) = fst (deploy e ev m g2))
  /\ (forall src dst amount, fst (transfer e src dst amount g1) = fst (transfer e src dst amount g2))
  /\ (forall a amount, fst (increase_balance e a amount g1) = fst (increase_balance e a amount g2))
  /\ (forall a name t b k, fst (account_create e a name t b k g1) = fst (account_create e a name t b k g2))
  /\ (forall a, fst (get_account e a g1) = fst (get_account e a g2))
  /\ (forall a, fst (account_load e a g1) = fst (account_load e a g2))
  /\ (forall a id, fst (get_var_vec e a id g1) = fst (get_var_vec e a id g2))
  /\ (forall t, fst (template_sections e t g1) = fst (template_sections e t g2))
  /\ (forall m, bytes_ok m -> option_map but_state (fst (verify e en m g1)) = option_map but_state (fst (verify e en m g2))).
Proof.
  intros e en g1 c1 g2 c2 HI HC HH HE R1 R2 H.
  pose proof (rt_live e en g1 c1 HI HC HH HE R1) as L1. pose proof (rt_live e en g2 c2 HI HC HH HE R2) as L2.
  apply same_contents_now in H; auto. repeat split; intros.
  - now apply deploy_alike.
  - now apply resp_transfer.
  - now apply resp_increase.
  - now apply resp_create.
  - now apply resp_get_account.
  - now apply resp_load.
  - assert (V : @resp gs_error _ e (get_var_vec e a id)) by (unfold get_var_vec; alike). now apply V.
  - now apply resp_sections.
  - now apply verify_alike.
Qed.
Print Assumptions C128_answers_alike.

(** ** C128 And the contents stay the same through any further history without rewinds. *)
Theorem C128_history_alike :
  forall e en ops g1 g2 c,
  iterates e -> collision_free e -> hash_wf e -> engine_wf en ->
  Forall rop_wf ops -> Forall onward ops ->
  rt_reachable e en g1 c -> rt_reachable e en g2 c -> same_contents e g1 g2 ->
  let '(g1', c1) := fold_left (fun s o => run_rop e en o s) ops (g1, c) in
  let '(g2', c2) := fold_left (fun s o => run_rop e en o s) ops (g2, c) in
  same_contents e g1' g2' /\ c1 = c2.
Proof.
  intros e en ops g1 g2 c HI HC HH HE W NR. revert g1 g2 c.
  induction ops as [|o ops IH]; intros g1 g2 c R1 R2 H; cbn [fold_left]; [now split|].
  inversion W as [|? ? W1 W2]; subst. inversion NR as [|? ? N1 N2]; subst.
  pose proof (rt_live e en g1 c HI HC HH HE R1) as L1. pose proof (rt_live e en g2 c HI HC HH HE R2) as L2.
  apply same_contents_now in H; auto. destruct (rop_alike e en HI HC HE o c g1 g2 HH L1 L2 W1 N1 H) as [X Y].
  destruct (run_rop e en o (g1, c)) as [h1 k1] eqn:E1. destruct (run_rop e en o (g2, c)) as [h2 k2] eqn:E2. cbn [fst snd] in *. subst k2.
  pose proof (rr_op e en o g1 c h1 k1 R1 W1 E1) as R1'. pose proof (rr_op e en o g2 c h2 k1 R2 W1 E2) as R2'.
  apply IH; auto. apply same_contents_now; [| |exact Y]; eapply rt_live; eauto.
Qed.
Print Assumptions C128_history_alike.

(** Two nodes with the same contents, one of which has committed a layer more. *)
Definition al_ops : list rop := TCommit :: py_ops.
Definition al_state : gstate := fst (py_run al_ops (rx_start, [])).
Lemma al_reachable : rt_reachable rx_env py_engine al_state (snd (py_run al_ops (rx_start, []))).
Proof.
  apply py_run_reachable; [apply (rr_new _ _ []); [constructor|]; vm_compute; reflexivity|].
  constructor; [exact I|apply py_ops_wf].
Qed.
Lemma al_same : same_contents rx_env py_state al_state.
Proof.
  assert (R : rt_reachable rx_env py_engine rx_start []) by (apply (rr_new _ _ []); [constructor|]; vm_compute; reflexivity).
  set (g2 := snd (rt_commit rx_env rx_start)).
  assert (R2 : rt_reachable rx_env py_engine g2 []) by (apply (rr_op _ _ TCommit rx_start []); [exact R|exact I|reflexivity]).
  assert (S : same_contents rx_env rx_start g2).
  { pose proof (rt_live _ _ _ _ rx_iterates rx_collision_free rx_hash_wf py_engine_wf R) as L.
    pose proof (rt_live _ _ _ _ rx_iterates rx_collision_free rx_hash_wf py_engine_wf R2) as L2.
    apply same_contents_now; auto. apply commit_same; auto using rx_iterates. }
  assert (NR : Forall onward py_ops) by (repeat constructor).
  pose proof (C128_history_alike rx_env py_engine py_ops rx_start g2 [] rx_iterates rx_collision_free rx_hash_wf py_engine_wf
    py_ops_wf NR R R2 S) as X.
  assert (Y : forall x y : gstate * price_cache, (let '(g1', c1) := x in let '(g2', c2) := y in same_contents rx_env g1' g2' /\ c1 = c2) ->
    same_contents rx_env (fst x) (fst y)) by (intros [? ?] [? ?] [Y _]; exact Y).
  exact (Y (py_run py_ops (rx_start, [])) (py_run py_ops (g2, [])) X).
Qed.
Example C128_satisfiable :
  same_contents rx_env py_state al_state
  /\ (st_next_id (gs_storage py_state) < st_next_id (gs_storage al_state))%Z
  /\ option_map cr_success (fst (rt_call rx_env py_engine (rx_call (txt "pay")) py_state)) = Some true
  /\ option_map cr_success (fst (rt_call rx_env py_engine (rx_call (txt "pay")) al_state)) = Some true
  /\ balance rx_env (snd (rt_call rx_env py_engine (rx_call (txt "pay")) al_state)) rx_a = 93.
Proof. split; [exact al_same|]. vm_compute. repeat split; reflexivity. Qed.

(** ** C128 The fingerprint in the receipt is not decided by the contents: the two nodes above
    report different states for the same call. *)
Theorem C128_state_refuted :
  ~ (forall e en m g1 c1 g2 c2,
     iterates e -> collision_free e -> hash_wf e -> engine_wf en -> bytes_ok m ->
     rt_reachable e en g1 c1 -> rt_reachable e en g2 c2 -> same_contents e g1 g2 ->
     option_map cr_new_state (fst (rt_call e en m g1)) = option_map cr_new_state (fst (rt_call e en m g2))).
Proof.
  intros H.
  specialize (H rx_env py_engine (rx_call (txt "pay")) py_state _ al_state _ rx_iterates rx_collision_free rx_hash_wf py_engine_wf
    ltac:(apply bytes_okb_ok; vm_compute; reflexivity) py_reachable al_reachable al_same).
  vm_compute in H. discriminate H.
Qed.
Print Assumptions C128_state_refuted.
