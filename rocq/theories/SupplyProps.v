(** C106: the money supply over whole histories. *)
From Coq Require Import String.
From Coq Require Import List NArith ZArith Bool Lia.
From Coq Require Import ZifyBool ZifyNat ZifyN.
From Verif Require Import Base CodecModel CodecSpec CodecProofs ReceiptModel LayoutModel SectionModel SectionSpec.
From Verif Require Import StorageModel StorageSpec StorageProofs StorageProps Text GlobalModel GlobalSpec GlobalProofs.
From Verif Require Import RuntimeModel RuntimeSpec RuntimeProofs RuntimeProps SupplySpec SupplyProofs.
Import ListNotations.
Open Scope list_scope.
Open Scope N_scope.

(* ------------------------------------------------------------------------------------ *)
(** * C106 Coins come only from balance increases and account creations *)

(** From the state of any runtime, after any further calls of the API, failed and aborted ones
    included, with any contracts: the accounts together own what they owned before plus what
    was issued meanwhile.  No deployment, spawn, call, transfer or commit adds or removes a
    coin.  The conditions: no rewind, no transfer from an account to itself, no account created
    where one lives already, and amounts that fit. *)
Theorem C106_accounted_partial :
  forall e en g c ops g' c' accounts,
  iterates e -> collision_free e -> hash_wf e -> engine_wf en -> contracts_no_self en ->
  rt_reachable e en g c -> Forall rop_wf ops -> Forall forward ops -> all_fresh e en ops (g, c) ->
  run_rops e en ops (g, c) = (g', c') ->
  all_accounts e g accounts -> supply e g accounts + issued e en ops (g, c) <= u64_max ->
  exists accounts',
    all_accounts e g' accounts' /\ incl accounts accounts'
    /\ supply e g' accounts' = supply e g accounts + issued e en ops (g, c).
Proof.
  intros e en g c ops g' c' l HI HC HH HE HN HR HW HF HFr HE' HA HS. pose proof (rt_live e en g c HI HC HH HE HR) as HL.
  destruct (history_adds e en ops HI HC HH HE HN HW HF g c l HL HA HS) as (l' & _ & HA' & Hi & _ & Heq).
  rewrite HE' in *. exists l'. split; auto.
Qed.
Print Assumptions C106_accounted_partial.

(** A new runtime has no accounts, whatever its genesis templates. *)
Theorem C106_start :
  forall e ts g a,
  iterates e -> collision_free e -> Forall (fun t => array_wf 20 (fst t) /\ sections_wf (snd t)) ts ->
  gs_new e empty_db ts = Some g -> array_wf 20 a -> vacant e g a.
Proof. exact genesis_vacant. Qed.
Print Assumptions C106_start.

(** So in every history of a runtime, rewinds and respawns included, all accounts together
    never own more than has ever been issued: neither now nor at any layer. *)
Theorem C106_never_more :
  forall e en ts g ops g' c',
  iterates e -> collision_free e -> hash_wf e -> engine_wf en -> contracts_no_self en ->
  Forall (fun t => array_wf 20 (fst t) /\ sections_wf (snd t)) ts -> gs_new e empty_db ts = Some g ->
  Forall rop_wf ops -> Forall no_self ops -> run_rops e en ops (g, no_prices) = (g', c') ->
  issued e en ops (g, no_prices) <= u64_max ->
  (exists accounts, all_accounts e g' accounts /\ supply e g' accounts <= issued e en ops (g, no_prices))
  /\ forall layer, let then_ := mkGstate (gs_storage g') (Some layer) in
     exists accounts, all_accounts e then_ accounts /\ supply e then_ accounts <= issued e en ops (g, no_prices).
Proof.
  intros e en ts g ops g' c' HI HC HH HE HN Hts Hg HW HF HR HS. cbv zeta.
  pose proof (genesis_capped e ts g HI HC Hts Hg) as HK.
  destruct (history_run_capped e en ops HI HC HH HE HN HW HF g no_prices 0 HK HS) as (_ & K1 & K2).
  rewrite HR in *. split; [exact K1|exact K2].
Qed.
Print Assumptions C106_never_more.

(* ------------------------------------------------------------------------------------ *)
(** ** Examples and counterexamples *)

(** A contract whose "pay" moves 5 coins from [rx_a] to [rx_b]. *)
Definition px_body (name : bytes) (mem : bytes) : wasm (list N * bytes) :=
  let done := fun (_ : N) m => WReturn m ([], []) in
  if bytes_eqb name (txt "svm_alloc") then WReturn mem ([40], [])
  else if bytes_eqb name (txt "init") then WHost mem (HSet64 0 7) done
  else if bytes_eqb name (txt "pay") then WHost (rx_a ++ rx_b ++ repeat 0 60) (HTransfer 0 20 5) done
  else WReturn mem ([], []).
Definition px_engine : engine :=
  mkEngine bytes (fun _ => None) (fun _ => WReturn (rx_a ++ rx_b ++ repeat 0 60) []) (fun _ => true)
    (fun _ name => Some (if bytes_eqb name svm_alloc then SigAlloc else SigUnit))
    (fun _ name _ mem => px_body name mem) (fun _ => Some (fun _ => Some 0)) (fun _ => Some (fun _ => Some 10)).
Lemma px_engine_wf : engine_wf px_engine.
Proof.
  split.
  - intros code. constructor. apply bytes_okb_ok. reflexivity.
  - intros i name args mem Hm. cbn. unfold px_body.
    repeat match goal with |- context [bytes_eqb name ?x] => destruct (bytes_eqb name x) end;
      try (apply ww_return; now auto); apply ww_host; try (apply bytes_okb_ok; reflexivity); auto;
      intros; now apply ww_return.
Qed.
Lemma px_no_self : contracts_no_self px_engine.
Proof.
  split.
  - intros code. constructor.
  - intros i name args mem. cbn. unfold px_body.
    repeat match goal with |- context [bytes_eqb name ?x] => destruct (bytes_eqb name x) end;
      constructor; auto; intros; try discriminate; try (constructor; auto).
    match goal with H : _ = HTransfer _ _ _ |- _ => injection H as <- <- <- end. vm_compute. discriminate.
Qed.

Definition px_ops : list rop :=
  [TDeploy (rx_envelope None) (rx_deploy 1); TSpawn (rx_envelope None) (rx_spawn 1 (txt "init"));
   TCreate rx_b (txt "bob") (rx_taddr 1) 50 0; TIncrease rx_a 100; TCall (rx_call (txt "pay"));
   TTransfer rx_b rx_a 3; TIncrease rx_a 7].
Definition px_end : gstate := fst (run_rops rx_env px_engine px_ops (rx_start, no_prices)).
Definition px_prices : price_cache := snd (run_rops rx_env px_engine px_ops (rx_start, no_prices)).
Lemma px_run : run_rops rx_env px_engine px_ops (rx_start, no_prices) = (px_end, px_prices).
Proof. apply surjective_pairing. Qed.

Lemma px_ops_wf : Forall rop_wf px_ops.
Proof.
  pose proof rx_ops_wf as H. unfold rx_ops in H. inversion H as [|? ? H1 H']; subst. inversion H' as [|? ? H2 H'']; subst.
  inversion H'' as [|? ? H3 H''']; subst. inversion H''' as [|? ? H4 _]; subst.
  constructor; [exact H1|]. constructor; [exact H2|]. constructor; [exact H3|]. constructor; [exact H4|].
  constructor; [cbn [rop_wf]; apply bytes_okb_ok; vm_compute; reflexivity|].
  constructor; [split; [apply rx_b_wf|apply rx_a_wf]|]. constructor; [apply rx_a_wf|constructor].
Qed.
Lemma px_forward : Forall forward px_ops.
Proof.
  unfold px_ops. repeat (apply Forall_cons; [split; [exact Logic.I || discriminate|exact Logic.I]|]). constructor.
Qed.
Lemma px_start_reachable : rt_reachable rx_env px_engine rx_start no_prices.
Proof. apply (rr_new _ _ []); [constructor|]. vm_compute. reflexivity. Qed.
Lemma px_fresh : all_fresh rx_env px_engine px_ops (rx_start, no_prices).
Proof.
  unfold px_ops.
  split; [exact Logic.I|]. split.
  { intros sp Hsp b Hb.
    assert (E : decoded dec_spawn (rx_spawn 1 (txt "init")) = Some (mkSpawn 0 (rx_taddr 1) (txt "acc") (txt "init") [1; 2]))
      by (vm_compute; reflexivity).
    rewrite E in Hsp. injection Hsp as <-. vm_compute in Hb. discriminate Hb. }
  split; [intros b Hb; vm_compute in Hb; discriminate Hb|]. repeat split.
Qed.
(** Issued: 50, 100 and 7.  The call and the transfer moved 5 and 3. *)
Example C106_satisfiable :
  Forall rop_wf px_ops /\ Forall forward px_ops /\ Forall no_self px_ops
  /\ all_fresh rx_env px_engine px_ops (rx_start, no_prices)
  /\ all_accounts rx_env rx_start [] /\ contracts_no_self px_engine
  /\ issued rx_env px_engine px_ops (rx_start, no_prices) = 157
  /\ fst (account_balance rx_env rx_a px_end) = Ok 105 /\ fst (account_balance rx_env rx_b px_end) = Ok 52.
Proof.
  split; [exact px_ops_wf|]. split; [exact px_forward|].
  split; [eapply Forall_impl; [|exact px_forward]; now intros ? []|].
  split; [exact px_fresh|]. split.
  { apply (genesis_accounts rx_env []); [apply rx_iterates|apply rx_collision_free|constructor|vm_compute; reflexivity]. }
  split; [exact px_no_self|]. split; [vm_compute; reflexivity|]. split; vm_compute; reflexivity.
Qed.

(** Without the conditions it is false: a transfer to oneself makes coins (so the accounts own
    more than was ever issued), *)
Theorem C106_self_transfer_refuted :
  ~ (forall e en ts g ops g' c',
       iterates e -> collision_free e -> hash_wf e -> engine_wf en -> contracts_no_self en ->
       Forall (fun t => array_wf 20 (fst t) /\ sections_wf (snd t)) ts -> gs_new e empty_db ts = Some g ->
       Forall rop_wf ops -> run_rops e en ops (g, no_prices) = (g', c') -> issued e en ops (g, no_prices) <= u64_max ->
       exists accounts, all_accounts e g' accounts /\ supply e g' accounts <= issued e en ops (g, no_prices)).
Proof.
  intros H. pose (ops := px_ops ++ [TTransfer rx_a rx_a 20]).
  destruct (run_rops rx_env px_engine ops (rx_start, no_prices)) as [now c'] eqn:E.
  assert (G : gs_new rx_env empty_db [] = Some rx_start) by (vm_compute; reflexivity).
  assert (W : Forall rop_wf ops).
  { apply Forall_app. split; [exact px_ops_wf|]. constructor; [split; apply rx_a_wf|constructor]. }
  assert (I0 : issued rx_env px_engine ops (rx_start, no_prices) = 157) by (vm_compute; reflexivity).
  specialize (H rx_env px_engine [] rx_start ops now c' rx_iterates rx_collision_free rx_hash_wf px_engine_wf px_no_self
    (Forall_nil _) G W E).
  rewrite I0 in H. destruct (H ltac:(unfold u64_max; lia)) as (l & (HN & HF & HA) & HS).
  assert (B1 : fst (account_balance rx_env rx_a now) = Ok 125).
  { replace now with (fst (run_rops rx_env px_engine ops (rx_start, no_prices))) by (rewrite E; reflexivity). vm_compute. reflexivity. }
  assert (B2 : fst (account_balance rx_env rx_b now) = Ok 52).
  { replace now with (fst (run_rops rx_env px_engine ops (rx_start, no_prices))) by (rewrite E; reflexivity). vm_compute. reflexivity. }
  pose proof (HA _ _ rx_a_wf B1) as A1. pose proof (HA _ _ rx_b_wf B2) as A2.
  destruct (two_first l rx_a rx_b HN A1 A2 ltac:(discriminate)) as (r & P & _).
  rewrite (supply_perm rx_env now _ _ P) in HS. cbn [supply] in HS. unfold balance in HS. rewrite B1, B2 in HS. lia.
Qed.
Print Assumptions C106_self_transfer_refuted.

Lemma px_accounts : exists l, all_accounts rx_env px_end l /\ supply rx_env px_end l = 157.
Proof.
  assert (I0 : issued rx_env px_engine px_ops (rx_start, no_prices) = 157) by (vm_compute; reflexivity).
  assert (G : gs_new rx_env empty_db [] = Some rx_start) by (vm_compute; reflexivity).
  assert (A0 : all_accounts rx_env rx_start []).
  { apply (genesis_accounts rx_env []); [apply rx_iterates|apply rx_collision_free|constructor|exact G]. }
  pose proof (C106_accounted_partial rx_env px_engine rx_start no_prices px_ops px_end px_prices [] rx_iterates rx_collision_free rx_hash_wf px_engine_wf
    px_no_self px_start_reachable px_ops_wf px_forward px_fresh px_run A0) as H.
  rewrite I0 in H.
  destruct H as (l & HA & _ & HS); [cbn [supply]; unfold u64_max; lia|].
  exists l. split; [exact HA|]. rewrite HS. reflexivity.
Qed.
Lemma px_end_live : live rx_env px_end.
Proof.
  refine (rt_live rx_env px_engine px_end px_prices rx_iterates rx_collision_free rx_hash_wf px_engine_wf _).
  exact (run_rops_reached rx_env px_engine px_ops rx_start no_prices px_end px_prices px_ops_wf px_start_reachable px_run).
Qed.

(** and spawning a template a second time destroys the coins of the account spawned first. *)
Theorem C106_respawn_refuted :
  ~ (forall e en ts g ops g' c' accounts,
       iterates e -> collision_free e -> hash_wf e -> engine_wf en -> contracts_no_self en ->
       Forall (fun t => array_wf 20 (fst t) /\ sections_wf (snd t)) ts -> gs_new e empty_db ts = Some g ->
       Forall rop_wf ops -> Forall forward ops -> run_rops e en ops (g, no_prices) = (g', c') ->
       issued e en ops (g, no_prices) <= u64_max ->
       all_accounts e g' accounts -> supply e g' accounts = issued e en ops (g, no_prices)).
Proof.
  intros H. pose (ops := px_ops ++ [TSpawn (rx_envelope None) (rx_spawn 1 (txt "init"))]).
  assert (Wm : bytes_ok (rx_spawn 1 (txt "init"))) by (apply bytes_okb_ok; vm_compute; reflexivity).
  assert (W : Forall rop_wf ops) by (apply Forall_app; split; [exact px_ops_wf|]; constructor; [exact Wm|constructor]).
  assert (F : Forall forward ops) by (apply Forall_app; split; [exact px_forward|]; constructor; [split; exact Logic.I|constructor]).
  assert (I1 : issued rx_env px_engine ops (rx_start, no_prices) = 157) by (vm_compute; reflexivity).
  assert (G : gs_new rx_env empty_db [] = Some rx_start) by (vm_compute; reflexivity).
  destruct px_accounts as (l & (HN & HF & HA) & HS).
  assert (E0 : exists rc c' , fst (spawn rx_env px_engine (rx_envelope None) (rx_spawn 1 (txt "init")) px_prices px_end) = (Some rc, c')
             /\ sr_success rc = true /\ sr_touched rc = [rx_a; rx_b]).
  { vm_compute. eexists _, _. split; [reflexivity|]. split; reflexivity. }
  destruct E0 as (rc & c' & E0 & E1 & E2).
  destruct (spawn rx_env px_engine (rx_envelope None) (rx_spawn 1 (txt "init")) px_prices px_end) as [[o c2] now] eqn:E.
  cbn [fst] in E0. injection E0 as -> ->.
  assert (EN : run_rops rx_env px_engine ops (rx_start, no_prices) = (now, c')).
  { unfold ops. rewrite run_rops_app, px_run. cbn [run_rops run_rop]. rewrite E. reflexivity. }
  assert (EN' : now = fst (run_rops rx_env px_engine ops (rx_start, no_prices))) by (rewrite EN; reflexivity).
  assert (B0 : fst (account_balance rx_env rx_a px_end) = Ok 105) by (vm_compute; reflexivity).
  assert (B1 : fst (account_balance rx_env rx_a now) = Ok 0) by (rewrite EN'; vm_compute; reflexivity).
  assert (B2 : fst (account_balance rx_env rx_b px_end) = fst (account_balance rx_env rx_b now)) by (rewrite EN'; vm_compute; reflexivity).
  destruct (spawn_effect _ _ _ _ _ _ _ _ _ rx_iterates rx_collision_free rx_hash_wf px_engine_wf px_end_live Wm E E1) as (sp & Hsp & K).
  assert (Dsp : decoded dec_spawn (rx_spawn 1 (txt "init")) = Some (mkSpawn 0 (rx_taddr 1) (txt "acc") (txt "init") [1; 2]))
      by (vm_compute; reflexivity).
  rewrite Dsp in Hsp. injection Hsp as <-. cbv zeta in K. destruct K as (_ & _ & _ & _ & _ & _ & _ & K & _).
  assert (AD : account_addr rx_env (rx_taddr 1) = rx_a) by (vm_compute; reflexivity).
  cbn [sp_template] in K. rewrite AD in K.
  assert (BO : forall x, array_wf 20 x -> x <> rx_a -> fst (account_balance rx_env x now) = fst (account_balance rx_env x px_end)).
  { intros x Hx Hne. destruct (list_eq_dec N.eq_dec x rx_b) as [->|Hnb]; [now rewrite B2|].
    destruct (K x Hx Hne) as (_ & _ & _ & K'). rewrite E2 in K'.
    assert (FE : fields_of rx_env x now = fields_of rx_env x px_end) by (apply K'; intros [Q|[Q|[]]]; congruence).
    unfold fields_of in FE. congruence. }
  pose proof (HA _ _ rx_a_wf B0) as Hin.
  assert (HA2 : all_accounts rx_env now l).
  { split; auto. split; auto. intros x b Hx Hb. destruct (list_eq_dec N.eq_dec x rx_a) as [->|Hne]; auto.
    apply (HA x b); auto. now rewrite <- BO. }
  specialize (H rx_env px_engine [] rx_start ops now c' l rx_iterates rx_collision_free rx_hash_wf px_engine_wf px_no_self (Forall_nil _) G W F EN).
  rewrite I1 in H. specialize (H ltac:(unfold u64_max; lia) HA2).
  assert (Q : supply rx_env now l + balance rx_env px_end rx_a = supply rx_env px_end l + balance rx_env now rx_a).
  { apply supply_change; auto. intros x Hx Hne. unfold balance. rewrite Forall_forall in HF. now rewrite BO by auto. }
  unfold balance in Q. rewrite B0, B1 in Q. lia.
Qed.
Print Assumptions C106_respawn_refuted.
