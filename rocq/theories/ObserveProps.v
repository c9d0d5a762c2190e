(** C78-C82: what receipts and queries report, and the price cache. *)
From Coq Require Import String.
From Coq Require Import List NArith ZArith Bool Lia.
From Coq Require Import ZifyBool ZifyNat ZifyN.
From Verif Require Import Base CodecModel CodecSpec ReceiptModel LayoutModel LayoutSpec SectionModel SectionSpec.
From Verif Require Import StorageModel StorageSpec StorageProofs Text.
From Verif Require Import GlobalModel GlobalSpec GlobalProofs RuntimeModel RuntimeSpec RuntimeProofs RuntimeProps.
From Verif Require Import ObserveSpec ObserveProofs CacheProofs.
Import ListNotations.
Open Scope N_scope.

(** A contract that logs in [svm_alloc], then twice in the called function, pays, sets its
    return data twice and finally changes the returned region. *)
Definition ob_mem : bytes := rx_a ++ rx_b ++ repeat 0 20 ++ txt "first second third".
Definition ob_body (name : bytes) (mem : bytes) : wasm (list N * bytes) :=
  if bytes_eqb name svm_alloc then WHost mem (HLog 0 3) (fun _ m => WReturn m ([40], []))
  else
    WHost mem (HLog 60 5) (fun _ m =>
    WHost m (HTransfer 0 20 5) (fun _ m =>
    WHost m (HSetReturndata 0 2) (fun _ m =>
    WHost m (HLog 66 6) (fun _ m =>
    WHost m (HSetReturndata 73 3) (fun _ m =>
      let m := firstn 75 m ++ [33] ++ skipn 76 m in
      if bytes_eqb name (txt "trap") then WTrap (txt "oops") else WReturn m ([], [])))))).
Definition ob_engine : engine :=
  mkEngine bytes (fun _ => None) (fun _ => WReturn ob_mem []) (fun _ => true)
    (fun _ name => Some (if bytes_eqb name svm_alloc then SigAlloc else SigUnit))
    (fun _ name _ mem => ob_body name mem) (fun _ => Some (fun _ => Some 0)) (fun _ => Some (fun _ => Some 10)).
Definition ob_call (f : bytes) : bytes :=
  match enc_transaction (mkTransaction 0 rx_a f [] [1; 2; 3]) with Some m => m | None => [] end.

(* ------------------------------------------------------------------------------------ *)
(** * C78 The receipt lists what the function logged *)

(** For a call that succeeded or trapped in the called function: its logs, in order and
    nothing else.  Missing from the full claim: what [svm_alloc] logs (see below). *)
Theorem C78_logs_partial :
  forall e en m tx g rc g',
  decoded dec_transaction m = Some tx -> rt_call e en m g = (Some rc, g') ->
  function_ran (tx_func_name tx) (cr_success rc) (cr_error rc) ->
  exists s, runs_as e en (tx_target tx) (tx_func_name tx) (tx_calldata tx) g s
    /\ cr_logs rc = logs_of (ss_main s)
    /\ (cr_success rc = true -> exists mem, ss_end s = Returned mem)
    /\ (cr_success rc = false -> exists msg, ss_end s = Trapped msg).
Proof.
  intros e en m tx g rc g' Ed E HF. destruct (call_session e en m tx g rc g' Ed E HF) as (s & K1 & K2 & _ & _ & _ & K6 & K7).
  exists s. split; [exact K1|]. split; [exact K2|]. split; [apply K6|exact K7].
Qed.
Print Assumptions C78_logs_partial.
(** The same for the constructor run by a spawn, on the state holding the new account. *)
Theorem C78_spawn_logs_partial :
  forall e en ev m c g sp rc c' g',
  iterates e -> collision_free e -> hash_wf e -> engine_wf en -> rt_reachable e en g c -> bytes_ok m ->
  decoded dec_spawn m = Some sp -> spawn e en ev m c g = (Some rc, c', g') ->
  function_ran (sp_ctor sp) (sr_success rc) (sr_error rc) ->
  let new := account_addr e (sp_template sp) in
  exists a g1 s, account_create e new (sp_name sp) (sp_template sp) 0 0 g = (Ok a, g1)
    /\ runs_as e en new (sp_ctor sp) (sp_calldata sp) g1 s
    /\ sr_logs rc = logs_of (ss_main s).
Proof.
  intros e en ev m c g sp rc c' g' HI HC HH HE HR Hm Ed E HF new. pose proof (rt_live e en g c HI HC HH HE HR) as HL.
  destruct (spawn_session e en ev m c g sp rc c' g' HI HC HH HL Hm Ed E HF) as (a & g1 & s & K0 & K1 & K2 & _).
  exists a, g1, s. auto.
Qed.
Print Assumptions C78_spawn_logs_partial.

Example C78_satisfiable :
  let (r, _) := rt_call rx_env ob_engine (ob_call (txt "go")) rx_state in
  option_map cr_success r = Some true /\ option_map cr_logs r = Some [txt "first"; txt "second"].
Proof. vm_compute. split; reflexivity. Qed.
Example C78_satisfiable_trap :
  let (r, _) := rt_call rx_env ob_engine (ob_call (txt "trap")) rx_state in
  match r with
  | Some rc => function_ran (txt "trap") (cr_success rc) (cr_error rc) /\ cr_success rc = false
               /\ cr_logs rc = [txt "first"; txt "second"]
  | None => False
  end.
Proof. vm_compute. split; [right; repeat eexists|]. split; reflexivity. Qed.

(** What [svm_alloc] logs is dropped. *)
Theorem C78_all_logs_refuted :
  ~ (forall e en m tx g rc g',
       iterates e -> collision_free e -> hash_wf e -> live e g ->
       decoded dec_transaction m = Some tx -> rt_call e en m g = (Some rc, g') -> cr_success rc = true ->
       exists s, runs_as e en (tx_target tx) (tx_func_name tx) (tx_calldata tx) g s
         /\ cr_logs rc = logs_of (ss_start s ++ ss_alloc s ++ ss_main s)).
Proof.
  intros H.
  destruct (rt_call rx_env ob_engine (ob_call (txt "go")) rx_state) as [[rc|] g'] eqn:E; [|vm_compute in E; discriminate E].
  destruct (decoded dec_transaction (ob_call (txt "go"))) as [tx|] eqn:Ed; [|vm_compute in Ed; discriminate Ed].
  assert (Hok : cr_success rc = true) by (vm_compute in E; injection E as <- _; reflexivity).
  destruct (H rx_env ob_engine (ob_call (txt "go")) tx rx_state rc g' rx_iterates rx_collision_free rx_hash_wf rx_live Ed E Hok)
    as (s & (a & t & l & c & H1 & H2 & H3 & H4 & H5) & HL).
  vm_compute in Ed. injection Ed as <-. cbn [tx_target tx_func_name tx_calldata] in *.
  vm_compute in H1. injection H1 as <-. vm_compute in H2. injection H2 as <-.
  vm_compute in H3. injection H3 as <-. vm_compute in H4. injection H4 as <-.
  vm_compute in H5. injection H5 as <-. vm_compute in HL. vm_compute in E. injection E as <- _. discriminate HL.
Qed.
Print Assumptions C78_all_logs_refuted.

(* ------------------------------------------------------------------------------------ *)
(** * C79 The return data is the region set last, as it was on return *)

Theorem C79_returndata :
  forall e en m tx g rc g',
  decoded dec_transaction m = Some tx -> rt_call e en m g = (Some rc, g') -> cr_success rc = true ->
  exists s mem, runs_as e en (tx_target tx) (tx_func_name tx) (tx_calldata tx) g s
    /\ ss_end s = Returned mem
    /\ cr_returndata rc = Some (match region_of (ss_start s ++ ss_alloc s ++ ss_main s) with
                                | Some (off, len) => slice mem off len
                                | None => []
                                end).
Proof.
  intros e en m tx g rc g' Ed E Hok.
  destruct (call_session e en m tx g rc g' Ed E (or_introl Hok)) as (s & K1 & _ & _ & _ & _ & K6 & _).
  destruct (K6 Hok) as ((mem & Hm) & D & A & _). exists s, mem. split; [exact K1|]. split; [exact Hm|]. rewrite D. f_equal.
  unfold returned. rewrite Hm.
  assert (R : region_of (ss_start s ++ ss_alloc s ++ ss_main s) = region_of (ss_start s ++ ss_main s)).
  { change (region_from None (ss_start s ++ ss_alloc s ++ ss_main s) = region_from None (ss_start s ++ ss_main s)).
    rewrite !region_from_app. f_equal. clear -A. change (region_of (ss_alloc s)) with (region_from None (ss_alloc s)) in A.
    assert (G : forall h r, region_from None h = None -> region_from r h = r).
    { induction h as [|[cc mm] h IH]; intros r H; [reflexivity|]. cbn [region_from fold_left] in *.
      destruct cc; cbn [region_step] in *; try now apply IH.
      exfalso. clear IH. revert H. generalize (offset, length). intros p. clear. revert p.
      induction h as [|[cc mm] h IH]; intros p H; [discriminate|]. cbn [fold_left] in H. destruct cc; cbn [region_step] in H; eauto. }
    now apply G. }
  now rewrite R.
Qed.
Print Assumptions C79_returndata.
Theorem C79_spawn_returndata :
  forall e en ev m c g sp rc c' g',
  iterates e -> collision_free e -> hash_wf e -> engine_wf en -> rt_reachable e en g c -> bytes_ok m ->
  decoded dec_spawn m = Some sp -> spawn e en ev m c g = (Some rc, c', g') -> sr_success rc = true ->
  let new := account_addr e (sp_template sp) in
  exists a g1 s, account_create e new (sp_name sp) (sp_template sp) 0 0 g = (Ok a, g1)
    /\ runs_as e en new (sp_ctor sp) (sp_calldata sp) g1 s
    /\ sr_returndata rc = Some (returned s).
Proof.
  intros e en ev m c g sp rc c' g' HI HC HH HE HR Hm Ed E Hok new. pose proof (rt_live e en g c HI HC HH HE HR) as HL.
  destruct (spawn_session e en ev m c g sp rc c' g' HI HC HH HL Hm Ed E (or_introl Hok)) as (a & g1 & s & K0 & K1 & _ & _ & _ & _ & K6 & _).
  exists a, g1, s. destruct (K6 Hok) as (_ & D & _). auto.
Qed.
Print Assumptions C79_spawn_returndata.
Example C79_satisfiable :
  let (r, _) := rt_call rx_env ob_engine (ob_call (txt "go")) rx_state in
  option_map cr_returndata r = Some (Some (txt "th!")).
Proof. vm_compute. reflexivity. Qed.

(* ------------------------------------------------------------------------------------ *)
(** * C80 Touched accounts are exactly the target and the parties of transfers *)

Theorem C80_touched_exact :
  forall e en m tx g rc g',
  decoded dec_transaction m = Some tx -> rt_call e en m g = (Some rc, g') -> cr_success rc = true ->
  exists s, runs_as e en (tx_target tx) (tx_func_name tx) (tx_calldata tx) g s
    /\ forall x, In x (cr_touched rc)
         <-> x = tx_target tx \/ In x (parties_of (ss_start s ++ ss_alloc s ++ ss_main s)).
Proof.
  intros e en m tx g rc g' Ed E Hok.
  destruct (call_session e en m tx g rc g' Ed E (or_introl Hok)) as (s & K1 & _ & _ & K4 & K5 & K6 & _).
  destruct (K6 Hok) as (_ & _ & _ & T). exists s. split; [exact K1|]. intros x. rewrite T.
  rewrite !parties_of_app, K4, K5. reflexivity.
Qed.
Print Assumptions C80_touched_exact.
(** A successful spawn lists its principal as well, whether or not it exists. *)
Theorem C80_spawn_touched_exact :
  forall e en ev m c g sp rc c' g',
  iterates e -> collision_free e -> hash_wf e -> engine_wf en -> rt_reachable e en g c -> bytes_ok m ->
  decoded dec_spawn m = Some sp -> spawn e en ev m c g = (Some rc, c', g') -> sr_success rc = true ->
  let new := account_addr e (sp_template sp) in
  exists a g1 s, account_create e new (sp_name sp) (sp_template sp) 0 0 g = (Ok a, g1)
    /\ runs_as e en new (sp_ctor sp) (sp_calldata sp) g1 s
    /\ forall x, In x (sr_touched rc)
         <-> x = env_principal ev \/ x = new \/ In x (parties_of (ss_start s ++ ss_alloc s ++ ss_main s)).
Proof.
  intros e en ev m c g sp rc c' g' HI HC HH HE HR Hm Ed E Hok new. pose proof (rt_live e en g c HI HC HH HE HR) as HL.
  destruct (spawn_session e en ev m c g sp rc c' g' HI HC HH HL Hm Ed E (or_introl Hok))
    as (a & g1 & s & K0 & K1 & _ & _ & K4 & K5 & K6 & _).
  exists a, g1, s. split; [exact K0|]. split; [exact K1|]. destruct (K6 Hok) as (_ & _ & _ & T). intros x. rewrite T.
  rewrite !parties_of_app, K4, K5. reflexivity.
Qed.
Print Assumptions C80_spawn_touched_exact.
Example C80_satisfiable :
  let (r, _) := rt_call rx_env ob_engine (ob_call (txt "go")) rx_state in
  option_map cr_touched r = Some [rx_a; rx_b].
Proof. vm_compute. reflexivity. Qed.

(* ------------------------------------------------------------------------------------ *)
(** * C81 The account query reports what was stored *)

(** A created account is reported with its balance, counter and template... *)
Theorem C81_created :
  forall e en g c a name t b k x g',
  iterates e -> collision_free e -> hash_wf e -> engine_wf en -> rt_reachable e en g c ->
  rop_wf (TCreate a name t b k) ->
  account_create e a name t b k g = (Ok x, g') ->
  get_account e a g' = (Ok (Some (b, k, t)), g').
Proof.
  intros e en g c a name t b k x g' HI HC HH HE HR (Ha & Hn & Ht & Hb & Hk) E.
  pose proof (rt_live e en g c HI HC HH HE HR) as HL.
  exact (create_get_account e a name t b k x g g' HI HC HL Ha Hn Ht Hb Hk E).
Qed.
Print Assumptions C81_created.
(** ...and every change of its balance shows, and only there. *)
Theorem C81_increased :
  forall e en g c a n b k t g',
  iterates e -> collision_free e -> hash_wf e -> engine_wf en -> rt_reachable e en g c -> array_wf 20 a ->
  get_account e a g = (Ok (Some (b, k, t)), g) ->
  increase_balance e a n g = (Ok tt, g') ->
  get_account e a g' = (Ok (Some (b + n, k, t)), g').
Proof.
  intros e en g c a n b k t g' HI HC HH HE HR Ha Eg E. pose proof (rt_live e en g c HI HC HH HE HR) as HL.
  apply increase_cases in E; auto. destruct E as (HL1 & M & b0 & B1 & _ & B2).
  eapply get_account_moves; [exact HI|exact HC|exact HL|exact HL1|exact M|exact Ha|exact Eg|].
  assert (b0 = b) by (apply get_account_reads in Eg; auto; destruct Eg as (_ & Q & _); congruence). now subst.
Qed.
Print Assumptions C81_increased.
Theorem C81_transferred :
  forall e en g c src dst n b1 k1 t1 b2 k2 t2 g',
  iterates e -> collision_free e -> hash_wf e -> engine_wf en -> rt_reachable e en g c ->
  array_wf 20 src -> array_wf 20 dst -> src <> dst ->
  get_account e src g = (Ok (Some (b1, k1, t1)), g) -> get_account e dst g = (Ok (Some (b2, k2, t2)), g) ->
  transfer e src dst n g = (Ok tt, g') ->
  get_account e src g' = (Ok (Some (b1 - n, k1, t1)), g') /\ n <= b1
  /\ get_account e dst g' = (Ok (Some (b2 + n, k2, t2)), g').
Proof.
  intros e en g c src dst n b1 k1 t1 b2 k2 t2 g' HI HC HH HE HR Hs Hd Hne E1 E2 E.
  pose proof (rt_live e en g c HI HC HH HE HR) as HL.
  apply transfer_cases in E; auto. destruct E as (HL1 & M & bs & bd & B1 & B2 & Hle & _ & B3 & B4). specialize (B4 Hne).
  pose proof (get_account_reads _ _ _ _ _ _ E1) as (_ & Q1 & _). pose proof (get_account_reads _ _ _ _ _ _ E2) as (_ & Q2 & _).
  assert (bs = b1) by congruence. assert (bd = b2) by congruence. subst.
  split; [|split; [exact Hle|]]; eapply get_account_moves; eauto.
Qed.
Print Assumptions C81_transferred.
(** Only existing accounts are reported. *)
Theorem C81_only_existing :
  forall e a g b k t g', get_account e a g = (Ok (Some (b, k, t)), g') -> exists_account e g a.
Proof. exact get_account_exists. Qed.
Print Assumptions C81_only_existing.
Example C81_satisfiable :
  get_account rx_env rx_b rx_state = (Ok (Some (50, 0, rx_taddr 1)), rx_state)
  /\ (let (r, g') := transfer rx_env rx_b rx_a 20 rx_state in
      r = Ok tt /\ fst (get_account rx_env rx_b g') = Ok (Some (30, 0, rx_taddr 1))
      /\ fst (get_account rx_env rx_a g') = Ok (Some (120, 0, rx_taddr 1)))
  /\ fst (get_account rx_env (repeat 9 20) rx_state) = Ok None.
Proof. vm_compute. repeat split; reflexivity. Qed.

(* ------------------------------------------------------------------------------------ *)
(** * C82 Remembered prices do not influence spawning *)

Theorem C82_cache_transparent :
  forall e en known ops g c ev m,
  iterates e -> collision_free e -> hash_wf e -> engine_wf en ->
  addresses_differ e known -> history e en known ops g c -> bytes_ok m ->
  fst (fst (spawn e en ev m c g)) = fst (fst (spawn e en ev m [] g))
  /\ snd (spawn e en ev m c g) = snd (spawn e en ev m [] g).
Proof.
  intros e en known ops g c ev m HI HC HH HE HD H Hm.
  destruct (history_invariant e en known HI HC HH HE HD ops g c H) as (_ & HL & HA & Hc).
  destruct (spawn_cache e en known HI HC HH HE HD ev m c g HL HA Hc Hm) as (K1 & K2 & _). auto.
Qed.
Print Assumptions C82_cache_transparent.
(** The example world and two codes; the cache has learnt the price of the first. *)
Definition ob_known (code : bytes) : Prop := code = rx_code 1 \/ code = rx_code 2.
Example C82_satisfiable :
  addresses_differ rx_env ob_known
  /\ history rx_env rx_engine ob_known rx_ops rx_state (snd (rx_run rx_ops (rx_start, [])))
  /\ map fst (snd (rx_run rx_ops (rx_start, []))) = [rx_taddr 1].
Proof.
  split; [|split].
  - intros c1 c2 [->| ->] [->| ->] H; auto; vm_compute in H; discriminate H.
  - exists [], rx_start. split; [constructor|]. split; [vm_compute; reflexivity|]. split; [apply rx_ops_wf|]. split.
    + unfold rx_ops. repeat match goal with |- Forall _ (_ :: _) => constructor | |- Forall _ [] => constructor end; try exact Logic.I.
      intros l H. vm_compute in H. injection H as <-. intros c [H|[H|[H|[]]]]; [|discriminate H..]. injection H as <-. left. vm_compute. reflexivity.
    + unfold rx_state, rx_run. now destruct (fold_left _ rx_ops _).
  - vm_compute. reflexivity.
Qed.
