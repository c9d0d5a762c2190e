(** Two calls that touch no common account can be made in either order. *)
From Coq Require Import String.
From Coq Require Import List NArith ZArith Bool Lia.
From Verif Require Import Base CodecModel CodecSpec CodecProofs ReceiptModel ReceiptProofs Text LayoutModel SectionModel.
From Verif Require Import SectionSpec SectionProofs StorageModel StorageSpec StorageProofs GlobalModel GlobalSpec GlobalProofs.
From Verif Require Import RuntimeModel RuntimeSpec RuntimeProofs RuntimeProps AnswerSpec AlikeSpec AlikeProofs LocalSpec LocalProofs.
From Verif Require Import PayProps LocalProps CommuteProofs.
Import ListNotations.
Open Scope list_scope.
Open Scope N_scope.

(* ------------------------------------------------------------------------------------ *)
(** * C130 Calls that touch no common account commute *)

(** ** C130 Take two calls that each succeed in a state, with receipts that list no common
    account as touched.  Made one after the other, in either order, both succeed with the
    receipts they had alone, but for the fingerprint, and every entry of the state reads the
    same after the one order as after the other. *)
Theorem C130_calls_commute :
  forall e en m1 m2 t1 t2 g c r1 r2 g1 g2,
  iterates e -> collision_free e -> hash_wf e -> engine_wf en -> engine_texts en -> rt_reachable e en g c ->
  bytes_ok m1 -> bytes_ok m2 -> decoded dec_transaction m1 = Some t1 -> decoded dec_transaction m2 = Some t2 ->
  rt_call e en m1 g = (Some r1, g1) -> cr_success r1 = true ->
  rt_call e en m2 g = (Some r2, g2) -> cr_success r2 = true ->
  (forall x, In x (cr_touched r1) -> ~ In x (cr_touched r2)) ->
  exists r12 g12 r21 g21, rt_call e en m2 g1 = (Some r12, g12) /\ rt_call e en m1 g2 = (Some r21, g21)
    /\ but_state r12 = but_state r2 /\ but_state r21 = but_state r1
    /\ forall k, storage_key k -> reads_same e k g12 g21.
Proof.
  intros e en m1 m2 t1 t2 g c r1 r2 g1 g2 HI HC HH HE HT HR. intros.
  eapply calls_commute; eauto. exact (rt_live e en g c HI HC HH HE HR).
Qed.
Print Assumptions C130_calls_commute.

(** ** C130 In terms of balances: each call moves the coins it moves alone. *)
Theorem C130_balances_commute :
  forall e en m1 m2 t1 t2 g c r1 r2 g1 g2,
  iterates e -> collision_free e -> hash_wf e -> engine_wf en -> engine_texts en -> rt_reachable e en g c ->
  bytes_ok m1 -> bytes_ok m2 -> decoded dec_transaction m1 = Some t1 -> decoded dec_transaction m2 = Some t2 ->
  rt_call e en m1 g = (Some r1, g1) -> cr_success r1 = true ->
  rt_call e en m2 g = (Some r2, g2) -> cr_success r2 = true ->
  (forall x, In x (cr_touched r1) -> ~ In x (cr_touched r2)) ->
  forall x, array_wf 20 x ->
  balance e (snd (rt_call e en m2 g1)) x = balance e (snd (rt_call e en m1 g2)) x.
Proof.
  intros e en m1 m2 t1 t2 g c r1 r2 g1 g2 HI HC HH HE HT HR B1 B2 D1 D2 E1 S1 E2 S2 D x Hx.
  pose proof (rt_live e en g c HI HC HH HE HR) as HL.
  destruct (calls_commute e en m1 m2 t1 t2 g r1 r2 g1 g2) as (r12 & g12 & r21 & g21 & E12 & E21 & _ & _ & K); auto.
  destruct (call_leaves e en m1 t1 g r1 g1) as (L1 & _); auto. destruct (call_leaves e en m2 t2 g r2 g2) as (L2 & _); auto.
  pose proof (call_cases e en m2 g1 _ _ t2 HI HC HE L1 B2 D2 E12) as [L12 _].
  pose proof (call_cases e en m1 g2 _ _ t1 HI HC HE L2 B1 D1 E21) as [L21 _].
  rewrite E12, E21. cbn [snd]. unfold balance. destruct L12 as [_ P12], L21 as [_ P21].
  specialize (K (key_mutable x) (sk_mutable x Hx)). unfold reads_same in K. rewrite !gs_get_now in K. cbn [fst] in K. injection K as K.
  unfold account_balance, read_and_decode, gbind. rewrite P12, P21. cbn [option_map]. rewrite !gs_get_now, K.
  destruct (cur e g21 (key_mutable x)) as [b|]; [|reflexivity]. destruct (dec_account_mut b) as [[? ?]|?|]; reflexivity.
Qed.
Print Assumptions C130_balances_commute.

(** A contract that can pay 5 coins from [rx_a] to [rx_b], or set a variable of its own. *)
Definition cm_body (name mem : bytes) : wasm (list N * bytes) :=
  let done := fun (_ : N) m => WReturn m ([], []) in
  if bytes_eqb name (txt "svm_alloc") then WReturn mem ([40], [])
  else if bytes_eqb name (txt "store") then WHost mem (HSet64 0 7) done
  else WHost mem (HTransfer 0 20 5) done.
Definition cm_engine : engine :=
  mkEngine bytes (fun _ => None) (fun _ => WReturn (rx_a ++ rx_b ++ repeat 0 60) []) (fun _ => true)
    (fun _ name => Some (if bytes_eqb name svm_alloc then SigAlloc else SigUnit))
    (fun _ name _ mem => cm_body name mem) (fun _ => Some (fun _ => Some 0)) (fun _ => Some (fun _ => Some 10)).
Lemma cm_engine_wf : engine_wf cm_engine.
Proof.
  split.
  - intros code. constructor. apply bytes_okb_ok. reflexivity.
  - intros i name ps mem Hm. cbn [cm_engine en_call]. unfold cm_body.
    repeat match goal with |- wasm_wf (if ?b then _ else _) => destruct b end; repeat (constructor; auto; intros).
Qed.
Lemma cm_engine_texts : engine_texts cm_engine.
Proof.
  split; [discriminate|]. split; [intros code; constructor|].
  intros i name ps mem. cbn [cm_engine en_call]. unfold cm_body.
  repeat match goal with |- trap_texts (if ?b then _ else _) => destruct b end; repeat (constructor; auto; intros).
Qed.
Definition cm_run (ops : list rop) (gc : gstate * price_cache) : gstate * price_cache :=
  fold_left (fun s o => run_rop rx_env cm_engine o s) ops gc.
Definition cm_state : gstate := fst (cm_run lo_ops (rx_start, [])).
Lemma cm_run_reachable ops g c : rt_reachable rx_env cm_engine g c -> Forall rop_wf ops ->
  rt_reachable rx_env cm_engine (fst (cm_run ops (g, c))) (snd (cm_run ops (g, c))).
Proof.
  intros H HF. revert g c H. induction HF as [|o ops Ho _ IH]; intros g c H; [exact H|].
  unfold cm_run. cbn [fold_left]. fold (cm_run ops). destruct (run_rop rx_env cm_engine o (g, c)) as [g1 c1] eqn:E.
  apply IH. now apply (rr_op _ _ o g c).
Qed.
Lemma cm_reachable : rt_reachable rx_env cm_engine cm_state (snd (cm_run lo_ops (rx_start, []))).
Proof.
  apply cm_run_reachable; [apply (rr_new _ _ []); [constructor|]; vm_compute; reflexivity|].
  pose proof lo_ops_wf as W. apply Forall_app in W. apply W.
Qed.
Definition cm_pay : bytes := rx_call (txt "pay").
Definition cm_store : bytes :=
  match enc_transaction (mkTransaction 0 lo_c (txt "store") [] [1; 2; 3]) with Some m => m | None => [] end.
Example C130_satisfiable :
  let (r1, g1) := rt_call rx_env cm_engine cm_pay cm_state in
  let (r2, g2) := rt_call rx_env cm_engine cm_store cm_state in
  option_map tx_target (decoded dec_transaction cm_pay) = Some rx_a
  /\ option_map tx_target (decoded dec_transaction cm_store) = Some lo_c
  /\ option_map cr_success r1 = Some true /\ option_map cr_touched r1 = Some [rx_a; rx_b]
  /\ option_map cr_success r2 = Some true /\ option_map cr_touched r2 = Some [lo_c]
  /\ balance rx_env (snd (rt_call rx_env cm_engine cm_store g1)) rx_a = 95
  /\ balance rx_env (snd (rt_call rx_env cm_engine cm_pay g2)) rx_a = 95.
Proof. vm_compute. repeat split; reflexivity. Qed.
