(** What a call or spawn leaves in the variables of the account is what the contract stored. *)
From Coq Require Import String.
From Coq Require Import List NArith ZArith Bool Lia.
From Coq Require Import ZifyBool ZifyNat ZifyN.
From Verif Require Import Base CodecModel CodecSpec CodecProofs ReceiptModel ReceiptProofs Text LayoutModel LayoutSpec SectionModel.
From Verif Require Import SectionSpec SectionProofs StorageModel StorageSpec StorageProofs GlobalModel GlobalSpec GlobalProofs.
From Verif Require Import SectionCanon RuntimeModel RuntimeSpec RuntimeProofs RuntimeProps ObserveSpec ObserveProofs StoredSpec StoredProofs PayProps.
Import ListNotations.
Open Scope list_scope.
Open Scope N_scope.

(* ------------------------------------------------------------------------------------ *)
(** * C127 A call leaves in the variables what the contract stored last *)

(** For a call that succeeded or trapped in the called function, on an account whose layout
    is declared by the given sizes: every store was to a declared variable not wider than
    the value; each variable has the first bytes of the last value stored in it, or, if
    there is none, the bytes it had before. *)
Theorem C127_call_stores :
  forall e en m tx g c rc g' a first sizes,
  iterates e -> collision_free e -> hash_wf e -> engine_wf en -> rt_reachable e en g c -> bytes_ok m ->
  decoded dec_transaction m = Some tx -> rt_call e en m g = (Some rc, g') ->
  function_ran (tx_func_name tx) (cr_success rc) (cr_error rc) ->
  fst (account_load e (tx_target tx) g) = Ok a -> from_byte_sizes first sizes = Some (ac_layout a) ->
  exists s, runs_as e en (tx_target tx) (tx_func_name tx) (tx_calldata tx) g s
    /\ (forall id v, In (id, v) (session_stores s) ->
          exists i size, id = first + N.of_nat i /\ nth_error sizes i = Some size /\ 0 < size <= nlen v)
    /\ forall i size, nth_error sizes i = Some size -> 0 < size ->
       exists old, get_var_vec e a (first + N.of_nat i) g = (Ok old, g)
         /\ get_var_vec e a (first + N.of_nat i) g'
            = (Ok (last_stored (first + N.of_nat i) size old (session_stores s)), g').
Proof.
  intros e en m tx g c rc g' a first sizes HI HC HH HE HR Hm Ed E HF A HL0.
  pose proof (rt_live e en g c HI HC HH HE HR) as HL.
  destruct (call_session e en m tx g rc g' Ed E HF) as (s & K & _). exists s. split; [exact K|].
  assert (Hw : transaction_wf tx) by (eapply decoded_canon; eauto using transaction_canon). destruct Hw as [S1 S2 S3 S4 S5].
  destruct (call_kept e en m tx g rc g' s a first sizes HI HC HE HL Hm Ed E HF K A HL0) as [P1 P2].
  split; [exact P1|]. intros i size Hi H0.
  destruct (var_readable e a first sizes HI HC ltac:(now rewrite (load_addr _ _ _ _ A)) HL0 g i size HL Hi H0) as (old & Ho).
  exists old. split; [exact Ho|]. apply var_vec_state, P2; auto. now rewrite Ho.
Qed.
Print Assumptions C127_call_stores.

(** The same for the constructor run by a spawn.  What the variables had before the spawn
    counts: spawning again at an address keeps the variables of the earlier account. *)
Theorem C127_spawn_stores :
  forall e en ev m c g sp rc c' g',
  iterates e -> collision_free e -> hash_wf e -> engine_wf en -> rt_reachable e en g c -> bytes_ok m ->
  decoded dec_spawn m = Some sp -> spawn e en ev m c g = (Some rc, c', g') ->
  function_ran (sp_ctor sp) (sr_success rc) (sr_error rc) ->
  let new := account_addr e (sp_template sp) in
  exists x g1 s a, account_create e new (sp_name sp) (sp_template sp) 0 0 g = (Ok x, g1)
    /\ fst (account_load e new g1) = Ok a
    /\ runs_as e en new (sp_ctor sp) (sp_calldata sp) g1 s
    /\ forall first sizes, from_byte_sizes first sizes = Some (ac_layout a) ->
       (forall id v, In (id, v) (session_stores s) ->
          exists i size, id = first + N.of_nat i /\ nth_error sizes i = Some size /\ 0 < size <= nlen v)
       /\ forall i size, nth_error sizes i = Some size -> 0 < size ->
          exists old, get_var_vec e a (first + N.of_nat i) g = (Ok old, g)
            /\ get_var_vec e a (first + N.of_nat i) g'
               = (Ok (last_stored (first + N.of_nat i) size old (session_stores s)), g').
Proof.
  intros e en ev m c g sp rc c' g' HI HC HH HE HR Hm Ed E HF new. pose proof (rt_live e en g c HI HC HH HE HR) as HL.
  destruct (spawn_kept e en ev m c g sp rc c' g' HI HC HH HE HL Hm Ed E HF) as (x & g1 & s & a & A1 & A2 & A3 & A4 & A5 & A6).
  exists x, g1, s, a. split; [exact A1|]. split; [exact A2|]. split; [exact A4|]. intros first sizes HL0.
  destruct (A6 first sizes HL0) as [P1 P2]. split; [exact P1|]. intros i size Hi H0.
  destruct (var_readable e a first sizes HI HC A3 HL0 g i size HL Hi H0) as (old & Ho).
  exists old. split; [exact Ho|]. apply var_vec_state, P2; auto. now rewrite A5, Ho.
Qed.
Print Assumptions C127_spawn_stores.

(** Four stores, the function traps afterwards; the variables are 8, 4 and 20 bytes. *)
Definition st_account : account := mkAccount rx_a (rx_taddr 1) rx_layout.
Definition st_session : option session :=
  session_of rx_env py_engine st_account (rx_taddr 1) (rx_code 1) (txt "store") [1; 2; 3] FullAccess py_state.
Example C127_satisfiable :
  let (r, g') := rt_call rx_env py_engine (rx_call (txt "store")) py_state in
  option_map cr_success r = Some false
  /\ fst (account_load rx_env rx_a py_state) = Ok st_account /\ from_byte_sizes 0 rx_sizes = Some (ac_layout st_account)
  /\ option_map session_stores st_session = Some [(0, le_bytes 8 7); (1, le_bytes 8 4294967305); (0, le_bytes 8 300); (2, rx_b)]
  /\ fst (get_var_vec rx_env st_account 0 g') = Ok (le_bytes 8 300)
  /\ fst (get_var_vec rx_env st_account 1 g') = Ok (le_bytes 4 9)
  /\ fst (get_var_vec rx_env st_account 2 g') = Ok rx_b.
Proof. vm_compute. repeat split; reflexivity. Qed.
Example C127_ran :
  let (r, _) := rt_call rx_env py_engine (rx_call (txt "store")) py_state in
  exists rc, r = Some rc /\ function_ran (txt "store") (cr_success rc) (cr_error rc).
Proof. vm_compute. eexists. split; [reflexivity|]. right. repeat eexists. Qed.
(** A spawn at the address of [rx_a] after the call above: the first and the third variable
    stay, the second is set by the constructor. *)
Example C127_spawn_satisfiable :
  let '(r, _, g') := spawn rx_env py_engine (rx_envelope None) (rx_spawn 1 (txt "init")) []
      (snd (rt_call rx_env py_engine (rx_call (txt "store")) py_state)) in
  option_map sr_success r = Some true
  /\ fst (get_var_vec rx_env st_account 0 g') = Ok (le_bytes 8 300)
  /\ fst (get_var_vec rx_env st_account 1 g') = Ok (le_bytes 4 11)
  /\ fst (get_var_vec rx_env st_account 2 g') = Ok rx_b.
Proof. vm_compute. repeat split; reflexivity. Qed.

(** A spawned account need not start with zero variables: one spawned at the address of an
    earlier account has that account's variables where its constructor stores nothing. *)
Definition st_ops : list rop := py_ops ++ [TCall (rx_call (txt "store"))].
Definition st_state : gstate := fst (py_run st_ops (rx_start, [])).
Lemma st_reachable : rt_reachable rx_env py_engine st_state (snd (py_run st_ops (rx_start, []))).
Proof.
  apply py_run_reachable; [apply (rr_new _ _ []); [constructor|vm_compute; reflexivity]|].
  unfold st_ops. apply Forall_app. split; [apply py_ops_wf|]. constructor; [|constructor].
  apply bytes_okb_ok. vm_compute. reflexivity.
Qed.
Lemma st_session_stores s :
  runs_as rx_env py_engine rx_a (txt "init") [1; 2] (snd (account_create rx_env rx_a (txt "acc") (rx_taddr 1) 0 0 st_state)) s ->
  session_stores s = [(1, le_bytes 4 11)].
Proof.
  intros (a & t & l & c & H1 & H2 & H3 & H4 & H5).
  vm_compute in H2. injection H2 as <-.
  vm_compute in H3. injection H3 as <-. vm_compute in H1. injection H1 as <-.
  vm_compute in H4. injection H4 as <-. vm_compute in H5. injection H5 as <-. vm_compute. reflexivity.
Qed.
Theorem C127_fresh_refuted :
  ~ (forall e en ev m c g sp rc c' g' a first sizes i size,
       iterates e -> collision_free e -> hash_wf e -> engine_wf en -> rt_reachable e en g c -> bytes_ok m ->
       decoded dec_spawn m = Some sp -> spawn e en ev m c g = (Some rc, c', g') -> sr_success rc = true ->
       let new := account_addr e (sp_template sp) in
       fst (account_load e new g') = Ok a -> from_byte_sizes first sizes = Some (ac_layout a) ->
       nth_error sizes i = Some size -> 0 < size ->
       (forall s, runs_as e en new (sp_ctor sp) (sp_calldata sp) (snd (account_create e new (sp_name sp) (sp_template sp) 0 0 g)) s ->
          forall v, ~ In (first + N.of_nat i, v) (session_stores s)) ->
       fst (get_var_vec e a (first + N.of_nat i) g') = Ok (repeat 0 (N.to_nat size))).
Proof.
  intros H.
  destruct (spawn rx_env py_engine (rx_envelope None) (rx_spawn 1 (txt "init")) (snd (py_run st_ops (rx_start, []))) st_state)
    as [[[rc|] c'] g'] eqn:E; [|vm_compute in E; discriminate E].
  assert (Hok : bytes_ok (rx_spawn 1 (txt "init"))) by (apply bytes_okb_ok; vm_compute; reflexivity).
  specialize (H rx_env py_engine (rx_envelope None) (rx_spawn 1 (txt "init")) _ st_state
    (mkSpawn 0 (rx_taddr 1) (txt "acc") (txt "init") [1; 2]) rc c' g' st_account 0 rx_sizes 0%nat 8
    rx_iterates rx_collision_free rx_hash_wf py_engine_wf st_reachable Hok).
  specialize (H ltac:(vm_compute; reflexivity) E). cbn zeta in H.
  assert (Hs : sr_success rc = true).
  { change rc with (match Some rc with Some r => r | None => rc end).
    change (Some rc) with (fst (fst (Some rc, c', g'))). rewrite <- E. vm_compute. reflexivity. }
  assert (G : g' = snd (spawn rx_env py_engine (rx_envelope None) (rx_spawn 1 (txt "init")) (snd (py_run st_ops (rx_start, []))) st_state))
    by (rewrite E; reflexivity).
  specialize (H Hs). change (account_addr rx_env _) with rx_a in H. subst g'. clear E.
  specialize (H ltac:(vm_compute; reflexivity) ltac:(vm_compute; reflexivity) eq_refl ltac:(reflexivity)).
  assert (X : fst (get_var_vec rx_env st_account (0 + N.of_nat 0)
    (snd (spawn rx_env py_engine (rx_envelope None) (rx_spawn 1 (txt "init")) (snd (py_run st_ops (rx_start, []))) st_state))) = Ok (le_bytes 8 300))
    by (vm_compute; reflexivity).
  rewrite X in H. assert (Y : Ok (le_bytes 8 300) = @Ok gs_error _ (repeat 0 (N.to_nat 8))).
  { apply H. intros s Hr v Hin. rewrite (st_session_stores s Hr) in Hin. destruct Hin as [Q|[]]. discriminate Q. }
  vm_compute in Y. discriminate Y.
Qed.
Print Assumptions C127_fresh_refuted.
