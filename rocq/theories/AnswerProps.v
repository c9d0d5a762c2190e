(** What the C interface answers: receipts of the runtime (C109) and validation (C110). *)
From Coq Require Import List NArith ZArith Bool String Lia ZifyBool ZifyNat ZifyN.
From Verif Require Import Base Text CodecModel CodecSpec CodecProofs ReceiptModel ReceiptSpec ReceiptProofs.
From Verif Require Import LayoutModel SectionModel SectionSpec SectionProofs StorageModel StorageSpec StorageProofs.
From Verif Require Import GlobalModel GlobalSpec GlobalProofs RuntimeModel RuntimeSpec RuntimeProofs RuntimeProps.
From Verif Require Import FfiModel FfiSpec FfiProofs FfiProps AnswerSpec AnswerProofs.
Import ListNotations.
Open Scope list_scope.
Open Scope N_scope.

(** ** C109 Receipts reach the client.
    Every receipt of the runtime has version 0, and it can be written down exactly when it has
    at most 255 logs of at most 65535 bytes, at most 65535 bytes of return data, at most 65535
    touched accounts, and the text of its error fits (a trap's message is cut after 255 bytes,
    between characters).  Receipts of deployments always can. *)
Theorem C109_receipts :
  forall w t ev m g c rc g' c',
  world_wf w -> engine_texts (w_engine w) -> rt_reachable (w_env w) (w_engine w) g c ->
  envelope_wf ev -> bytes_ok m -> nlen m < 2 ^ 32 ->
  execute w t ev m g c = (Some rc, g', c') ->
  receipt_version rc = 0 /\ (fits rc <-> receipt_wf rc) /\ (fits rc <-> exists data, enc_receipt rc = Some data)
  /\ (t = TxDeploy -> fits rc).
Proof.
  intros w t ev m g c rc g' c' HW HT HR He Hm Hn X. pose proof HW as (HI & HC & HH & HE & _).
  assert (HL : live (w_env w) g) by (eapply rt_live; eauto).
  destruct (executed_sent w t ev m g c rc g' c' HW HT HL He Hm Hn X) as [A B].
  assert (K : receipt_wf rc -> exists data, enc_receipt rc = Some data).
  { intros R. destruct (receipt_rt rc R) as (b & E & _). eauto. }
  split; [eapply executed_version; eauto|].
  assert (F : (exists data, enc_receipt rc = Some data) -> fits rc).
  { intros [d E]. destruct (fits_dec rc) as [F|F]; [exact F|]. rewrite (B F) in E. discriminate E. }
  split; [split; [exact A|auto]|]. split; [split; auto|].
  intros ->. cbn [execute] in X. destruct (deploy (w_env w) ev m g) as [[d|] g1]; [|discriminate]. injection X as <- _ _. exact I.
Qed.
Print Assumptions C109_receipts.

(** Through the C interface: whatever was done before, a transaction that yields such a receipt
    is answered with bytes that decode to it; one whose receipt does not fit is answered with
    an error, though all its effects are kept. *)
Theorem C109_answered :
  forall w tr lb p r t ev v ctx c m rc g cache,
  world_wf w -> engine_texts (w_engine w) -> Forall (fun x => capi_wf (fst x)) tr -> answered w library_start tr lb ->
  behind lb p = Some r -> rn_poisoned r = false ->
  envelope_wf ev -> enc_envelope ev = Some v -> context_wf ctx -> enc_context ctx = Some c ->
  bytes_ok m -> nlen m < 2 ^ 32 ->
  execute w t ev m (rn_gs r) (rn_cache r) = (Some rc, g, cache) ->
  exists a lb', capi_step w (COn p (submit t v m c)) lb = (a, lb')
    /\ (exists poisoned, behind lb' p = Some (mkRuntime g cache poisoned))
    /\ (fits rc -> exists data, a = RReceipt data /\ dec_receipt data = Ok (receipt_view rc, []))
    /\ (~ fits rc -> a = RError).
Proof.
  intros w tr lb p r t ev v ctx c m rc g cache HW HT HF HA B P We Ee Wc Ec Hm Hn X.
  assert (HR : rt_reachable (w_env w) (w_engine w) (rn_gs r) (rn_cache r)) by exact (C84_behind_handles w tr lb p r HW HF HA B).
  destruct (C109_receipts w t ev m _ _ rc g cache HW HT HR We Hm Hn X) as (_ & [F _] & [_ N] & _).
  destruct (C84_transparent w lb p r t ev v ctx c m (Some rc) g cache B P We Ee Wc Ec X) as (a & lb' & E & B' & R).
  exists a, lb'. split; [exact E|]. split; [exact B'|]. split; [auto|].
  intros NF. destruct (step_on w p (submit t v m c) lb r B) as (lb2 & E2 & _). rewrite E in E2. injection E2 as -> _.
  apply (unsent w t ev v ctx c m r rc g cache); auto. destruct (enc_receipt rc) as [d|] eqn:Er; [|reflexivity]. exfalso. apply NF, N. now exists d.
Qed.
Print Assumptions C109_answered.

(** A contract that pays 5 coins and then logs 256 times. *)
Fixpoint ax_chat (n : nat) (mem : bytes) : wasm (list N * bytes) :=
  match n with O => WReturn mem ([], []) | S n => WHost mem (HLog 0 1) (fun _ mem => ax_chat n mem) end.
Definition ax_body (name mem : bytes) : wasm (list N * bytes) :=
  if bytes_eqb name (txt "chat") then WHost mem (HTransfer 0 20 5) (fun _ mem => ax_chat 256 mem) else rx_body name mem.
Definition ax_engine : engine :=
  mkEngine bytes (fun _ => None) (fun _ => WReturn (rx_a ++ rx_b ++ repeat 0 60) []) (fun _ => true)
    (fun _ name => Some (if bytes_eqb name RuntimeModel.svm_alloc then SigAlloc else SigUnit))
    (fun _ name _ mem => ax_body name mem) (fun _ => Some (fun _ => Some 0)) (fun _ => Some (fun _ => Some 10)).
Definition ax_world : world :=
  mkWorld rx_env ax_engine (fun _ => Some ProgramProps.ex_module) [(rx_taddr 1, rx_sections 1)] (rx_taddr 1).
Lemma ax_chat_traps n mem : trap_texts (ax_chat n mem).
Proof. revert mem. induction n as [|n IH]; intros mem; constructor; auto. Qed.
Lemma ax_engine_texts : engine_texts ax_engine.
Proof.
  split; [discriminate|]. split; [intros; constructor|]. intros i name args mem. cbn. unfold ax_body, rx_body.
  repeat match goal with |- context [bytes_eqb name ?x] => destruct (bytes_eqb name x) end;
    repeat (constructor; intros); try apply ax_chat_traps; try reflexivity; apply bytes_okb_ok; reflexivity.
Qed.
Definition ax_ops : list capi :=
  [CInit; CCreate InMemory 16; COn 16 (QSpawn fx_env_bytes (rx_spawn 1 (txt "init")) fx_ctx_bytes);
   COn 16 (QGenesisAccount rx_b 50 1 7); COn 16 (QIncrease rx_a 100)].
Definition ax_lib : library := snd (capi_run ax_world ax_ops library_start).
Definition ax_trace : trace := combine ax_ops (fst (capi_run ax_world ax_ops library_start)).
Lemma ax_chat_wf n mem : bytes_ok mem -> wasm_wf (ax_chat n mem).
Proof. revert mem. induction n as [|n IH]; intros mem H; constructor; auto. Qed.
Lemma ax_world_wf : world_wf ax_world.
Proof.
  destruct fx_world_wf as (A & B & C & D & E & F). split; [exact A|]. split; [exact B|]. split; [exact C|]. split; [|split; [exact E|exact F]].
  split; [exact (proj1 D)|]. intros i name args mem Hm. cbn. unfold ax_body. destruct (bytes_eqb name (txt "chat")); [|exact (proj2 D i name args mem Hm)].
  constructor; [exact Hm|]. intros v mem' H'. now apply ax_chat_wf.
Qed.
Lemma ax_trace_wf : Forall (fun x => capi_wf (fst x)) ax_trace.
Proof.
  enough (G : forall tr : trace, map fst tr = ax_ops -> Forall (fun x => capi_wf (fst x)) tr) by (apply G; vm_compute; reflexivity).
  intros tr L. apply Forall_map. rewrite L. unfold ax_ops.
  constructor; [exact I|]. constructor; [exact I|]. constructor; [|constructor; [|constructor; [|constructor]]]; cbn [capi_wf request_wf].
  - split; [|split; [apply bytes_okb_ok; vm_compute; reflexivity|]]; (split; [vm_compute; reflexivity|apply bytes_okb_ok; vm_compute; reflexivity]).
  - split; [exact rx_b_wf|]. repeat split; reflexivity.
  - exact rx_a_wf.
Qed.
Lemma ax_answered : answered ax_world library_start ax_trace ax_lib.
Proof.
  unfold answered. replace (map fst ax_trace) with ax_ops by (vm_compute; reflexivity).
  replace (map snd ax_trace) with (fst (capi_run ax_world ax_ops library_start)) by (vm_compute; reflexivity).
  apply surjective_pairing.
Qed.
Definition ax_rt : runtime := match behind ax_lib 16 with Some r => r | None => mkRuntime rx_start [] false end.
Lemma ax_behind : behind ax_lib 16 = Some ax_rt. Proof. vm_compute. reflexivity. Qed.
(** So an error reply does not mean that a call did nothing: here it paid. *)
Theorem C109_error_undone_refuted :
  ~ (forall w tr lb p r v m c addr a,
     world_wf w -> engine_texts (w_engine w) -> Forall (fun x => capi_wf (fst x)) tr -> answered w library_start tr lb ->
     behind lb p = Some r -> fst (serve w (QCall v m c) r) = RError ->
     fst (serve w (QGetAccount addr a) (snd (serve w (QCall v m c) r))) = fst (serve w (QGetAccount addr a) r)).
Proof.
  intros H.
  specialize (H ax_world ax_trace ax_lib 16 ax_rt fx_env_bytes (rx_call (txt "chat")) fx_ctx_bytes rx_b (mkSvmAccount rx_b 0 0 0 rx_b)
    ax_world_wf ax_engine_texts ax_trace_wf ax_answered ax_behind).
  assert (K : fst (serve ax_world (QCall fx_env_bytes (rx_call (txt "chat")) fx_ctx_bytes) ax_rt) = RError) by (vm_compute; reflexivity).
  specialize (H K). vm_compute in H. discriminate H.
Qed.
Print Assumptions C109_error_undone_refuted.
Example C109_satisfiable :
  world_wf ax_world /\ engine_texts ax_engine /\ Forall (fun x => capi_wf (fst x)) ax_trace /\ answered ax_world library_start ax_trace ax_lib
  /\ behind ax_lib 16 = Some ax_rt /\ rn_poisoned ax_rt = false
  /\ envelope_wf (rx_envelope None) /\ enc_envelope (rx_envelope None) = Some fx_env_bytes /\ context_wf fx_ctx /\ enc_context fx_ctx = Some fx_ctx_bytes
  /\ (exists rc, fst (fst (execute ax_world TxCall (rx_envelope None) (rx_call (txt "pay")) (rn_gs ax_rt) (rn_cache ax_rt))) = Some rc
      /\ succeeded rc = true /\ fits rc)
  /\ (exists rc, fst (fst (execute ax_world TxCall (rx_envelope None) (rx_call (txt "chat")) (rn_gs ax_rt) (rn_cache ax_rt))) = Some rc
      /\ succeeded rc = true /\ ~ fits rc)
  /\ (exists rc, fst (fst (execute ax_world TxCall (rx_envelope None) (rx_call (txt "bad")) (rn_gs ax_rt) (rn_cache ax_rt))) = Some rc
      /\ succeeded rc = false /\ fits rc).
Proof.
  split; [exact ax_world_wf|]. split; [exact ax_engine_texts|]. split; [exact ax_trace_wf|]. split; [exact ax_answered|]. split; [exact ax_behind|].
  split; [vm_compute; reflexivity|]. split; [exact fx_envelope_wf|]. split; [vm_compute; reflexivity|]. split; [exact fx_ctx_wf|]. split; [vm_compute; reflexivity|].
  split; [|split]; eexists; (split; [vm_compute; reflexivity|]); (split; [reflexivity|]).
  - repeat split; try constructor; vm_compute; discriminate.
  - intros ([H _] & _). vm_compute in H. now apply H.
  - repeat split; try constructor; vm_compute; try discriminate; reflexivity.
Qed.

(** ** C110 Validation of spawns and calls.
    A message passes exactly when it begins with the encoding of a well-formed spawn or
    transaction; validating changes nothing, and needs no usable storage. *)
Theorem C110_validation :
  forall w m r, bytes_ok m ->
  (starts_with enc_spawn spawn_wf m -> serve w (QValidateSpawn m) r = (ROk, r))
  /\ (~ starts_with enc_spawn spawn_wf m -> serve w (QValidateSpawn m) r = (RError, r))
  /\ (starts_with enc_transaction transaction_wf m -> serve w (QValidateCall m) r = (ROk, r))
  /\ (~ starts_with enc_transaction transaction_wf m -> serve w (QValidateCall m) r = (RError, r)).
Proof.
  intros w m r B. destruct (decoded_starts enc_spawn dec_spawn spawn_wf m spawn_canon spawn_rt B) as [S1 S2].
  destruct (decoded_starts enc_transaction dec_transaction transaction_wf m transaction_canon transaction_rt B) as [T1 T2].
  cbn [serve]. unfold svm_validate_spawn, svm_validate_call, validate_spawn, validate_call.
  destruct (decoded dec_spawn m), (decoded dec_transaction m); (split; [|split; [|split]]); intros H; try reflexivity; exfalso;
    ((apply S2 in H; now apply H) || (apply T2 in H; now apply H) || (apply H, S1; discriminate) || (apply H, T1; discriminate)).
Qed.
Print Assumptions C110_validation.
(** What validation refuses is refused when it is submitted, and changes nothing. *)
Theorem C110_refused :
  forall w v m c r,
  (fst (serve w (QValidateSpawn m) r) = RError -> serve w (QSpawn v m c) r = (RError, r))
  /\ (fst (serve w (QValidateCall m) r) = RError -> serve w (QCall v m c) r = (RError, r) /\ serve w (QVerify v m c) r = (RError, r)).
Proof.
  intros w v m c [g cache pz]. cbn [serve]. unfold svm_validate_spawn, svm_validate_call, validate_spawn, validate_call. cbn [fst]. split.
  - destruct (decoded dec_spawn m) as [sp|] eqn:D; [discriminate|]. intros _. unfold FfiModel.svm_spawn, svm_runtime_action, locked.
    destruct (decoded dec_envelope v), (decoded dec_context c); try reflexivity. cbn [rn_poisoned]. destruct pz; [reflexivity|].
    unfold spawn. rewrite D. reflexivity.
  - destruct (decoded dec_transaction m) as [tx|] eqn:D; [discriminate|]. intros _.
    unfold svm_call, FfiModel.svm_verify, svm_runtime_action, locked.
    destruct (decoded dec_envelope v), (decoded dec_context c); try (split; reflexivity). cbn [rn_poisoned]. destruct pz; [split; reflexivity|].
    unfold rt_call, RuntimeModel.verify. rewrite D. split; reflexivity.
Qed.
Print Assumptions C110_refused.
(** Not so for deployments: code that validation refuses can be deployed all the same. *)
Definition ax_unparsed : world := mkWorld rx_env rx_engine (fun _ => None) [(rx_taddr 1, rx_sections 1)] (rx_taddr 1).
Theorem C110_refused_deploy_refuted :
  ~ (forall w v m c r, world_wf w -> fst (serve w (QValidateDeploy m) r) = RError -> fst (serve w (QDeploy v m c) r) = RError).
Proof.
  intros H.
  assert (K : fst (serve ax_unparsed (QDeploy fx_env_bytes (rx_deploy 2) fx_ctx_bytes) ax_rt) = RError).
  { apply H; [exact fx_world_wf|vm_compute; reflexivity]. }
  vm_compute in K. discriminate K.
Qed.
Print Assumptions C110_refused_deploy_refuted.
(** Nor does passing validation promise a receipt: a call of an account that is not there. *)
Theorem C110_accepted_refuted :
  ~ (forall w ev v m ctx c r, world_wf w -> envelope_wf ev -> enc_envelope ev = Some v -> context_wf ctx -> enc_context ctx = Some c ->
     rn_poisoned r = false -> fst (serve w (QValidateCall m) r) = ROk -> fst (serve w (QCall v m c) r) <> RError).
Proof.
  intros H.
  apply (H fx_world (rx_envelope None) fx_env_bytes (rx_call (txt "set")) fx_ctx fx_ctx_bytes fx_rt fx_world_wf fx_envelope_wf).
  - vm_compute; reflexivity.
  - exact fx_ctx_wf.
  - vm_compute; reflexivity.
  - vm_compute; reflexivity.
  - vm_compute; reflexivity.
  - vm_compute; reflexivity.
Qed.
Print Assumptions C110_accepted_refuted.
Example C110_satisfiable :
  starts_with enc_spawn spawn_wf (rx_spawn 1 (txt "init")) /\ bytes_ok (rx_spawn 1 (txt "init"))
  /\ ~ starts_with enc_spawn spawn_wf [0; 0; 7]
  /\ starts_with enc_transaction transaction_wf (rx_call (txt "set")) /\ bytes_ok (rx_call (txt "set"))
  /\ ~ starts_with enc_transaction transaction_wf [0; 0; 7].
Proof.
  assert (B1 : bytes_ok (rx_spawn 1 (txt "init"))) by (apply bytes_okb_ok; vm_compute; reflexivity).
  assert (B2 : bytes_ok (rx_call (txt "set"))) by (apply bytes_okb_ok; vm_compute; reflexivity).
  assert (B3 : bytes_ok [0; 0; 7]) by (apply bytes_okb_ok; vm_compute; reflexivity).
  split; [|split; [exact B1|split; [|split; [|split; [exact B2|]]]]].
  - apply (decoded_starts enc_spawn dec_spawn spawn_wf _ spawn_canon spawn_rt B1). vm_compute. discriminate.
  - intros H. apply (decoded_starts enc_spawn dec_spawn spawn_wf _ spawn_canon spawn_rt B3) in H. now apply H.
  - apply (decoded_starts enc_transaction dec_transaction transaction_wf _ transaction_canon transaction_rt B2). vm_compute. discriminate.
  - intros H. apply (decoded_starts enc_transaction dec_transaction transaction_wf _ transaction_canon transaction_rt B3) in H. now apply H.
Qed.
