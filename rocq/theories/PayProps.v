(** The balances after a call or spawn are the ones before with the payments the contract
    asked for. *)
From Coq Require Import String.
From Coq Require Import List NArith ZArith Bool Lia.
From Coq Require Import ZifyBool ZifyNat ZifyN.
From Verif Require Import Base CodecModel CodecSpec CodecProofs ReceiptModel ReceiptProofs Text LayoutModel SectionModel.
From Verif Require Import SectionSpec SectionProofs StorageModel StorageSpec StorageProofs GlobalModel GlobalSpec GlobalProofs.
From Verif Require Import RuntimeModel RuntimeSpec RuntimeProofs RuntimeProps ObserveSpec ObserveProofs PaySpec PayProofs.
Import ListNotations.
Open Scope list_scope.
Open Scope N_scope.

(* ------------------------------------------------------------------------------------ *)
(** * C126 A call moves exactly the coins the contract asks to move *)

(** For a call that succeeded or trapped in the called function: every payment was covered
    when it was made, and the balances are those the payments give. *)
Theorem C126_call_pays :
  forall e en m tx g c rc g',
  iterates e -> collision_free e -> hash_wf e -> engine_wf en -> rt_reachable e en g c -> bytes_ok m ->
  decoded dec_transaction m = Some tx -> rt_call e en m g = (Some rc, g') ->
  function_ran (tx_func_name tx) (cr_success rc) (cr_error rc) ->
  exists s, runs_as e en (tx_target tx) (tx_func_name tx) (tx_calldata tx) g s
    /\ covered (balance e g) (session_payments s)
    /\ forall x, array_wf 20 x -> balance e g' x = pay_all (balance e g) (session_payments s) x.
Proof.
  intros e en m tx g c rc g' HI HC HH HE HR Hm Ed E HF. pose proof (rt_live e en g c HI HC HH HE HR) as HL.
  destruct (call_session e en m tx g rc g' Ed E HF) as (s & K & _).
  destruct (call_paid e en m tx g rc g' s HI HC HE HL Hm Ed E HF K) as [P1 P2 P3]. exists s. auto.
Qed.
Print Assumptions C126_call_pays.

(** In sums: what an account has after the call and what it paid others make up what it had
    and what it was paid.  (What it pays itself counts as paid to it only.) *)
Theorem C126_call_sums :
  forall e en m tx g c rc g',
  iterates e -> collision_free e -> hash_wf e -> engine_wf en -> rt_reachable e en g c -> bytes_ok m ->
  decoded dec_transaction m = Some tx -> rt_call e en m g = (Some rc, g') ->
  function_ran (tx_func_name tx) (cr_success rc) (cr_error rc) ->
  exists s, runs_as e en (tx_target tx) (tx_func_name tx) (tx_calldata tx) g s
    /\ forall x, array_wf 20 x ->
       balance e g' x + paid_by x (session_payments s) = balance e g x + paid_to x (session_payments s).
Proof.
  intros e en m tx g c rc g' HI HC HH HE HR Hm Ed E HF.
  destruct (C126_call_pays e en m tx g c rc g' HI HC HH HE HR Hm Ed E HF) as (s & K & P1 & P2).
  exists s. split; [exact K|]. intros x Hx. rewrite P2 by auto. now apply pay_all_sum.
Qed.
Print Assumptions C126_call_sums.

(** The same for the constructor run by a spawn.  The spawn first gives the new account a
    balance of 0, whatever was there. *)
Theorem C126_spawn_pays :
  forall e en ev m c g sp rc c' g',
  iterates e -> collision_free e -> hash_wf e -> engine_wf en -> rt_reachable e en g c -> bytes_ok m ->
  decoded dec_spawn m = Some sp -> spawn e en ev m c g = (Some rc, c', g') ->
  function_ran (sp_ctor sp) (sr_success rc) (sr_error rc) ->
  let new := account_addr e (sp_template sp) in
  let before := fun y => if list_eq_dec N.eq_dec y new then 0 else balance e g y in
  exists a g1 s, account_create e new (sp_name sp) (sp_template sp) 0 0 g = (Ok a, g1)
    /\ runs_as e en new (sp_ctor sp) (sp_calldata sp) g1 s
    /\ covered before (session_payments s)
    /\ forall x, array_wf 20 x -> balance e g' x = pay_all before (session_payments s) x.
Proof.
  intros e en ev m c g sp rc c' g' HI HC HH HE HR Hm Ed E HF new before. pose proof (rt_live e en g c HI HC HH HE HR) as HL.
  destruct (spawn_paid e en ev m c g sp rc c' g' HI HC HH HE HL Hm Ed E HF) as (a & g1 & A & _ & B & s & K & [P1 P2 P3]).
  exists a, g1, s. split; [exact A|]. split; [exact K|]. split.
  - exact (covered_agree _ P1 _ _ B P2).
  - intros x Hx. rewrite P3 by auto. exact (pay_all_agree _ P1 _ _ B x Hx).
Qed.
Print Assumptions C126_spawn_pays.

(* ------------------------------------------------------------------------------------ *)
(** * C65 A contract spends only its own coins *)

(** What holds of it: an account has less after a call only when the contract asked to move
    coins from it to another account.  Missing from the full claim: that this account is
    the one called. *)
Theorem C65_spends_asked_partial :
  forall e en m tx g c rc g',
  iterates e -> collision_free e -> hash_wf e -> engine_wf en -> rt_reachable e en g c -> bytes_ok m ->
  decoded dec_transaction m = Some tx -> rt_call e en m g = (Some rc, g') ->
  function_ran (tx_func_name tx) (cr_success rc) (cr_error rc) ->
  exists s, runs_as e en (tx_target tx) (tx_func_name tx) (tx_calldata tx) g s
    /\ forall x, array_wf 20 x -> balance e g' x < balance e g x ->
       exists dst n, In (x, dst, n) (session_payments s) /\ dst <> x.
Proof.
  intros e en m tx g c rc g' HI HC HH HE HR Hm Ed E HF.
  destruct (C126_call_sums e en m tx g c rc g' HI HC HH HE HR Hm Ed E HF) as (s & K & P).
  exists s. split; [exact K|]. intros x Hx Hlt. apply paid_by_in. specialize (P x Hx). lia.
Qed.
Print Assumptions C65_spends_asked_partial.

(** A contract whose function pays 5 coins from [rx_a] to [rx_b] twice and takes 3 back, and
    whose constructor takes 4 coins from [rx_b] and sets a variable; another function sets
    variables and traps. *)
Definition py_body (name mem : bytes) : wasm (list N * bytes) :=
  let done := fun (_ : N) m => WReturn m ([], []) in
  if bytes_eqb name (txt "svm_alloc") then WReturn mem ([40], [])
  else if bytes_eqb name (txt "init") then WHost mem (HTransfer 20 0 4) (fun _ m => WHost m (HSet32 1 11) done)
  else if bytes_eqb name (txt "store") then
    WHost mem (HSet64 0 7) (fun _ m => WHost m (HSet64 1 4294967305) (fun _ m =>
    WHost m (HSet64 0 300) (fun _ m => WHost m (HStore160 20 2) (fun _ _ => WTrap (txt "oops")))))
  else WHost mem (HTransfer 0 20 5) (fun _ m => WHost m (HTransfer 0 20 5) (fun _ m => WHost m (HTransfer 20 0 3) done)).
Definition py_engine : engine :=
  mkEngine bytes (fun _ => None) (fun _ => WReturn (rx_a ++ rx_b ++ repeat 0 60) []) (fun _ => true)
    (fun _ name => Some (if bytes_eqb name svm_alloc then SigAlloc else SigUnit))
    (fun _ name _ mem => py_body name mem) (fun _ => Some (fun _ => Some 0)) (fun _ => Some (fun _ => Some 10)).
Lemma py_engine_wf : engine_wf py_engine.
Proof.
  split.
  - intros code. constructor. apply bytes_okb_ok. reflexivity.
  - intros i name ps mem Hm. cbn [py_engine en_call]. unfold py_body.
    repeat match goal with |- wasm_wf (if ?b then _ else _) => destruct b end; repeat (constructor; auto; intros).
Qed.

Definition py_ops : list rop :=
  [TDeploy (rx_envelope None) (rx_deploy 1); TCreate rx_b (txt "bob") (rx_taddr 1) 50 0; TCreate rx_a (txt "bob") (rx_taddr 1) 100 0].
Definition py_run (ops : list rop) (gc : gstate * price_cache) : gstate * price_cache :=
  fold_left (fun s o => run_rop rx_env py_engine o s) ops gc.
Definition py_state : gstate := fst (py_run py_ops (rx_start, [])).
Lemma py_run_reachable ops g c : rt_reachable rx_env py_engine g c -> Forall rop_wf ops ->
  rt_reachable rx_env py_engine (fst (py_run ops (g, c))) (snd (py_run ops (g, c))).
Proof.
  intros H HF. revert g c H. induction HF as [|o ops Ho _ IH]; intros g c H; [exact H|].
  unfold py_run. cbn [fold_left]. fold (py_run ops). destruct (run_rop rx_env py_engine o (g, c)) as [g1 c1] eqn:E.
  apply IH. now apply (rr_op _ _ o g c).
Qed.
Lemma py_ops_wf : Forall rop_wf py_ops.
Proof.
  unfold py_ops. repeat match goal with |- Forall _ (_ :: _) => constructor | |- Forall _ [] => constructor end;
    cbn [rop_wf]; try (apply bytes_okb_ok; vm_compute; reflexivity);
    (split; [first [apply rx_a_wf|apply rx_b_wf]|]);
    (split; [split; [split; [discriminate|apply bytes_okb_ok; reflexivity]|reflexivity]|]);
    (split; [split; [reflexivity|apply bytes_okb_ok; reflexivity]|]); split; reflexivity.
Qed.
Lemma py_reachable : rt_reachable rx_env py_engine py_state (snd (py_run py_ops (rx_start, []))).
Proof. apply py_run_reachable; [|apply py_ops_wf]. apply (rr_new _ _ []); [constructor|]. vm_compute. reflexivity. Qed.

Definition py_session : option session :=
  match fst (account_load rx_env rx_a py_state), fst (account_template rx_env rx_a py_state) with
  | Ok a, Ok t => session_of rx_env py_engine a t (rx_code 1) (txt "pay") [1; 2; 3] FullAccess py_state
  | _, _ => None
  end.
Example C126_satisfiable :
  let (r, g') := rt_call rx_env py_engine (rx_call (txt "pay")) py_state in
  option_map cr_success r = Some true
  /\ option_map session_payments py_session = Some [(rx_a, rx_b, 5); (rx_a, rx_b, 5); (rx_b, rx_a, 3)]
  /\ balance rx_env py_state rx_a = 100 /\ balance rx_env g' rx_a = 93
  /\ balance rx_env py_state rx_b = 50 /\ balance rx_env g' rx_b = 57.
Proof. vm_compute. repeat split; reflexivity. Qed.
(** The account [rx_a] is the one spawned; it loses its 100 coins to the spawn. *)
Example C126_spawn_satisfiable :
  let '(r, _, g') := spawn rx_env py_engine (rx_envelope None) (rx_spawn 1 (txt "init")) [] py_state in
  option_map sr_success r = Some true
  /\ account_addr rx_env (rx_taddr 1) = rx_a
  /\ balance rx_env g' rx_a = 4 /\ balance rx_env g' rx_b = 46.
Proof. vm_compute. repeat split; reflexivity. Qed.
