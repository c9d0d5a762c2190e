(** The C interface: C50, C83-C87. *)
From Coq Require Import String.
From Coq Require Import List NArith ZArith Bool Lia ZifyBool ZifyNat ZifyN.
From Verif Require Import Base Text CodecModel CodecSpec CodecProofs ReceiptModel ReceiptSpec ReceiptProofs.
From Verif Require Import LayoutModel SectionModel SectionSpec SectionProofs StorageModel StorageSpec StorageProofs.
From Verif Require Import GlobalModel GlobalSpec GlobalProofs RuntimeModel RuntimeSpec RuntimeProofs RuntimeProps.
From Verif Require Import ObserveProofs ObserveProps FfiModel FfiSpec FfiProofs.
From Verif Require ProgramModel ProgramProps.
Import ListNotations.
Open Scope list_scope.
Open Scope N_scope.

(** A world to try things in: the coin transfer template is the contract of [RuntimeProps]. *)
Definition fx_world : world :=
  mkWorld rx_env rx_engine (fun _ => Some ProgramProps.ex_module) [(rx_taddr 1, rx_sections 1)] (rx_taddr 1).
Lemma fx_sections_wf : sections_wf (rx_sections 1).
Proof. exact (proj1 C66_satisfiable). Qed.
Lemma fx_world_wf : world_wf fx_world.
Proof.
  split; [exact rx_iterates|]. split; [exact rx_collision_free|]. split; [exact rx_hash_wf|]. split; [exact rx_engine_wf|].
  split; [|exact rx_a_wf]. constructor; [|constructor]. split; [exact rx_a_wf|exact fx_sections_wf].
Qed.
Definition fx_ops : list capi :=
  [CInit; CCreate InMemory 16; CCreate InMemory 32; COn 16 (QGenesisAccount rx_b 50 1 7);
   COn 32 (QGenesisAccount rx_b 9 0 0); COn 48 QLayerInfo; CDestroy 32; CDestroy 32; CCount].
Definition fx_trace : trace := combine fx_ops (fst (capi_run fx_world fx_ops library_start)).
Definition fx_lib : library := snd (capi_run fx_world fx_ops library_start).

(** ** C50 Resource accounting.
    The number of runtimes the library reports is the number it handed out less the number it
    took back; a handle is accepted exactly while it is open. *)
Theorem C50_count :
  forall w tr lb, answered w library_start tr lb -> allocator_ok tr ->
  destructions tr <= creations tr
  /\ capi_step w CCount lb = (RCount (creations tr - destructions tr), lb).
Proof.
  intros w tr lb H HA. pose proof (count_trace w tr lb H HA) as C. split; [lia|].
  cbn [capi_step]. unfold svm_runtimes_count, tracker_count. do 3 f_equal. lia.
Qed.
Print Assumptions C50_count.
Theorem C50_handles :
  forall w tr lb p, answered w library_start tr lb ->
  fst (capi_step w (CDestroy p) lb) = (if is_open p tr false then ROk else RError)
  /\ (is_open p tr false = false -> forall q, capi_step w (COn p q) lb = (RError, lb))
  /\ (is_open p tr false = true -> exists r, behind lb p = Some r).
Proof.
  intros w tr lb p H. pose proof (answered_open w p tr _ _ H) as O. change (contains p _) with false in O at 2.
  pose proof (open_behind w p tr lb H) as B. split; [|split].
  - cbn [capi_step]. unfold svm_runtime_destroy, tracker_free. rewrite O. now destruct (is_open p tr false).
  - intros E q. cbn [capi_step]. unfold on_runtime. fold (behind lb p). destruct (behind lb p); [|reflexivity].
    rewrite E in B. exfalso. assert (K : false = true) by (apply B; discriminate). discriminate K.
  - intros E. destruct (behind lb p) as [r|]; [eauto|]. exfalso. apply (proj2 B E). reflexivity.
Qed.
Print Assumptions C50_handles.
Example C50_satisfiable :
  answered fx_world library_start fx_trace fx_lib /\ allocator_ok fx_trace
  /\ creations fx_trace = 2 /\ destructions fx_trace = 1 /\ is_open 16 fx_trace false = true /\ is_open 32 fx_trace false = false
  /\ map snd fx_trace = [ROk; RHandle 16; RHandle 32; ROk; ROk; RError; ROk; RError; RCount 1].
Proof.
  split; [vm_compute; reflexivity|]. split; [|repeat split; vm_compute; reflexivity].
  assert (T : fx_trace = combine fx_ops [ROk; RHandle 16; RHandle 32; ROk; ROk; RError; ROk; RError; RCount 1]) by (vm_compute; reflexivity).
  intros tr1 l p tr2 K. rewrite T in K. unfold fx_ops in K. cbn [combine] in K.
  destruct tr1 as [|x1 tr1]; [discriminate K|]. cbn [app] in K. injection K as <- K.
  destruct tr1 as [|x2 tr1]; [reflexivity|]. cbn [app] in K. injection K as <- K.
  destruct tr1 as [|x3 tr1]; [cbn [app] in K; injection K as _ <- _; reflexivity|]. cbn [app] in K. injection K as _ K.
  exfalso. repeat (destruct tr1 as [|? tr1]; [discriminate K|cbn [app] in K; injection K as _ K]). destruct tr1; discriminate K.
Qed.

(** ** C83 Runtimes do not see each other.
    Whatever else happens to the library, the answers a runtime gives and the state it reaches
    are those of a runtime that was asked the same things alone. *)
Theorem C83_isolated :
  forall w lb tr lb' p r,
  answered w lb tr lb' -> behind lb p = Some r -> ~ reopened p tr ->
  told p tr = fst (serve_all w (asked p tr) r)
  /\ behind lb' p = Some (snd (serve_all w (asked p tr) r)).
Proof. intros w lb tr lb' p r H B N. exact (isolated w p tr lb lb' r H B N). Qed.
Print Assumptions C83_isolated.
Example C83_satisfiable :
  exists lb r, answered fx_world lb (skipn 2 fx_trace) fx_lib /\ behind lb 16 = Some r /\ ~ reopened 16 (skipn 2 fx_trace)
  /\ asked 16 (skipn 2 fx_trace) = [QGenesisAccount rx_b 50 1 7] /\ told 16 (skipn 2 fx_trace) = [ROk].
Proof.
  exists (snd (capi_run fx_world (firstn 2 fx_ops) library_start)).
  exists (mkRuntime (match gs_new rx_env empty_db [(rx_taddr 1, rx_sections 1)] with Some g => g | None => rx_start end) [] false).
  split; [vm_compute; reflexivity|]. split; [vm_compute; reflexivity|]. split; [|split; vm_compute; reflexivity].
  intros (x & Hx & K).
  assert (F : In (fst x) (skipn 2 fx_ops)).
  { replace (skipn 2 fx_ops) with (map fst (skipn 2 fx_trace)) by (vm_compute; reflexivity). apply in_map. exact Hx. }
  cbn [skipn fx_ops In] in F. destruct K as [[l K]|K]; rewrite K in F; intuition discriminate.
Qed.

(** ** C84 The interface is transparent.
    Submitting a transaction with the encodings of an envelope and a context does to the
    runtime what executing it does, and the bytes returned decode to the receipt. *)
Theorem C84_transparent :
  forall w lb p r t ev v ctx c m o g cache,
  behind lb p = Some r -> rn_poisoned r = false ->
  envelope_wf ev -> enc_envelope ev = Some v -> context_wf ctx -> enc_context ctx = Some c ->
  execute w t ev m (rn_gs r) (rn_cache r) = (o, g, cache) ->
  exists a lb', capi_step w (COn p (submit t v m c)) lb = (a, lb')
    /\ (exists poisoned, behind lb' p = Some (mkRuntime g cache poisoned))
    /\ match o with
       | Some rc => receipt_wf rc -> exists data, a = RReceipt data /\ dec_receipt data = Ok (receipt_view rc, [])
       | None => a = RError
       end.
Proof.
  intros w lb p r t ev v ctx c m o g cache B P We Ee Wc Ec X.
  destruct (step_on w p (submit t v m c) lb r B) as (lb' & E & B'). exists (fst (serve w (submit t v m c) r)), lb'.
  split; [exact E|]. rewrite B'. clear E B' B lb lb'.
  pose proof (decoded_envelope ev v We Ee) as De. pose proof (decoded_context ctx c Wc Ec) as Dc.
  destruct t; cbn [submit serve execute] in *; unfold svm_deploy, svm_spawn, svm_verify, svm_call, svm_runtime_action, locked;
    rewrite De, Dc, P.
  - destruct (deploy (w_env w) ev m (rn_gs r)) as [d g1]. injection X as <- <- <-. cbn [fst snd]. split; [eauto|].
    destruct d as [d|]; [|reflexivity]. intros W. exact (answer_reports enc_deploy_receipt RDeploy d eq_refl W).
  - destruct (spawn (w_env w) (w_engine w) ev m (rn_cache r) (rn_gs r)) as [[d c1] g1]. injection X as <- <- <-. cbn [fst snd]. split; [eauto|].
    destruct d as [d|]; [|reflexivity]. intros W. exact (answer_reports enc_spawn_receipt RSpawn d eq_refl W).
  - destruct (verify (w_env w) (w_engine w) m (rn_gs r)) as [d g1]. injection X as <- <- <-. cbn [fst snd]. split; [eexists; reflexivity|].
    destruct d as [d|]; [|reflexivity]. intros W. exact (answer_reports enc_call_receipt RCall d eq_refl W).
  - destruct (rt_call (w_env w) (w_engine w) m (rn_gs r)) as [d g1]. injection X as <- <- <-. cbn [fst snd]. split; [eexists; reflexivity|].
    destruct d as [d|]; [|reflexivity]. intros W. exact (answer_reports enc_call_receipt RCall d eq_refl W).
Qed.
Print Assumptions C84_transparent.
(** So everything proved about a runtime holds of those used through the interface. *)
Theorem C84_behind_handles :
  forall w tr lb p r,
  world_wf w -> Forall (fun x => capi_wf (fst x)) tr -> answered w library_start tr lb -> behind lb p = Some r ->
  rt_reachable (w_env w) (w_engine w) (rn_gs r) (rn_cache r).
Proof. intros w tr lb p r HW HF H B. exact (trace_served w tr lb HW HF H p r B). Qed.
Print Assumptions C84_behind_handles.
Definition fx_env_bytes : bytes := match enc_envelope (rx_envelope None) with Some b => b | None => [] end.
Definition fx_ctx : context := mkContext (repeat 1 32) 4 (repeat 2 32).
Definition fx_ctx_bytes : bytes := match enc_context fx_ctx with Some b => b | None => [] end.
Lemma fx_envelope_wf : envelope_wf (rx_envelope None).
Proof. constructor; try reflexivity; try exact rx_b_wf; try exact Logic.I. Qed.
Lemma fx_ctx_wf : context_wf fx_ctx.
Proof. constructor; try reflexivity; (split; [reflexivity|apply bytes_okb_ok; reflexivity]). Qed.
Example C84_satisfiable :
  exists r, behind fx_lib 16 = Some r /\ rn_poisoned r = false
  /\ envelope_wf (rx_envelope None) /\ enc_envelope (rx_envelope None) = Some fx_env_bytes
  /\ context_wf fx_ctx /\ enc_context fx_ctx = Some fx_ctx_bytes
  /\ (exists rc, fst (fst (execute fx_world TxSpawn (rx_envelope None) (rx_spawn 1 (txt "init")) (rn_gs r) (rn_cache r))) = Some rc
      /\ succeeded rc = true)
  /\ world_wf fx_world /\ Forall (fun x => capi_wf (fst x)) fx_trace.
Proof.
  destruct (behind fx_lib 16) as [r|] eqn:E; [|vm_compute in E; discriminate E]. exists r. split; [reflexivity|].
  vm_compute in E. injection E as <-.
  split; [reflexivity|]. split; [exact fx_envelope_wf|]. split; [vm_compute; reflexivity|]. split; [exact fx_ctx_wf|].
  split; [vm_compute; reflexivity|]. split; [vm_compute; eexists; split; reflexivity|]. split; [exact fx_world_wf|].
  assert (L : map fst fx_trace = fx_ops) by (vm_compute; reflexivity).
  apply Forall_map. rewrite L. unfold fx_ops.
  repeat (constructor; [cbn [capi_wf location_wf request_wf]; try exact Logic.I;
    try (split; [exact rx_b_wf|]; repeat split; reflexivity)|]). constructor.
Qed.

(** ** C96 Layers through the C interface.
    The interface tells whether the last changes are unfinished, which layer is the last one
    and its state, and moves between layers: with nothing unfinished a commit makes the next
    layer and a rewind returns to the one asked for; otherwise both are refused and nothing
    changes. *)
Theorem C96_layers :
  forall w tr lb p r,
  world_wf w -> Forall (fun x => capi_wf (fst x)) tr -> answered w library_start tr lb ->
  behind lb p = Some r -> rn_poisoned r = false ->
  (has_uncommitted_changes (gs_storage (rn_gs r)) = true ->
     capi_step w (COn p QUncommitted) lb = (RError, lb)
     /\ capi_step w (COn p QCommit) lb = (RError, lb)
     /\ forall k h l, capi_step w (COn p QLayerInfo) lb = (RLayer h l, lb) -> k <= l -> l < 2 ^ 63 ->
          capi_step w (COn p (QRewind k)) lb = (RError, lb))
  /\ (has_uncommitted_changes (gs_storage (rn_gs r)) = false ->
     capi_step w (COn p QUncommitted) lb = (ROk, lb)
     /\ forall h l, capi_step w (COn p QLayerInfo) lb = (RLayer h l, lb) ->
          (exists lb1 h1, capi_step w (COn p QCommit) lb = (ROk, lb1)
             /\ capi_step w (COn p QLayerInfo) lb1 = (RLayer h1 (l + 1), lb1))
          /\ (forall k, k <= l -> l < 2 ^ 63 -> exists lb1 h1, capi_step w (COn p (QRewind k)) lb = (ROk, lb1)
             /\ capi_step w (COn p QLayerInfo) lb1 = (RLayer h1 k, lb1)))
  /\ (forall l h, last_layer (gs_storage (rn_gs r)) = Ok (l, h) -> (0 <= l)%Z ->
        capi_step w (COn p QLayerInfo) lb = (RLayer h (Z.to_N l), lb)).
Proof.
  intros w tr lb p r HW HF H B P.
  pose proof (trace_served w tr lb HW HF H p r B) as HR. unfold served in HR.
  destruct HW as (HI & HC & HH & HE & HG & Hs).
  destruct (rt_live (w_env w) (w_engine w) (rn_gs r) (rn_cache r) HI HC HH HE HR) as [HS _].
  pose proof (gs_reachable_storage (w_env w) (rn_gs r) HS) as HSt.
  assert (INFO : forall lb r l h, behind lb p = Some r -> rn_poisoned r = false ->
            last_layer (gs_storage (rn_gs r)) = Ok (l, h) -> (0 <= l)%Z ->
            capi_step w (COn p QLayerInfo) lb = (RLayer h (Z.to_N l), lb)).
  { intros lb0 r0 l h B0 P0 L L0. apply (step_same w p QLayerInfo lb0 r0 _ B0). cbn [serve]. unfold svm_layer_info, locked.
    rewrite P0. unfold gs_current_layer, gbind. rewrite L. cbn [lift]. unfold layer_of. destruct (Z.ltb_spec l 0); [lia|].
    cbn [gsome gret]. destruct r0; reflexivity. }
  assert (INV : forall h l, capi_step w (COn p QLayerInfo) lb = (RLayer h l, lb) ->
            last_layer (gs_storage (rn_gs r)) = Ok (Z.of_N l, h)).
  { intros h l E. destruct (step_on w p QLayerInfo lb r B) as (lb2 & E2 & _). rewrite E in E2. injection E2 as E2 _.
    cbn [serve] in E2. unfold svm_layer_info, locked in E2. rewrite P in E2. unfold gs_current_layer, gbind in E2.
    destruct (last_layer (gs_storage (rn_gs r))) as [[z f]| |]; cbn [lift] in E2; try discriminate E2.
    unfold layer_of in E2. destruct (Z.ltb_spec z 0); cbn in E2; [discriminate E2|]. injection E2 as -> ->.
    now rewrite Z2N.id by lia. }
  assert (NEXT : forall z f, last_layer (gs_storage (rn_gs r)) = Ok (z, f) -> st_next_id (gs_storage (rn_gs r)) = (z + 1)%Z).
  { intros z f. unfold last_layer. destruct (initial_layer_id <? st_next_id (gs_storage (rn_gs r)))%Z; [|discriminate].
    destruct (layer_fingerprint _ _ _); cbn [bind]; try discriminate. intros [= <- _]. lia. }
  split; [|split; [|intros; now apply (INFO lb r)]].
  - intros D. assert (ND : exists x y, st_dirty (gs_storage (rn_gs r)) = x :: y).
    { unfold has_uncommitted_changes in D. destruct (st_dirty (gs_storage (rn_gs r))); [discriminate D|eauto]. }
    destruct ND as (x & y & ND). split; [|split].
    + apply (step_same w p QUncommitted lb r _ B). cbn [serve]. unfold svm_uncommitted_changes, locked, gs_has_uncommitted_changes.
      now rewrite P, ND.
    + apply (step_same w p QCommit lb r _ B). cbn [serve]. unfold svm_commit, locked, rt_commit, gs_commit, gbind, gs_commit_raw, commit.
      rewrite P, ND. cbn [lift done]. destruct r as [[s q] c b]. reflexivity.
    + intros k h l E K L. apply INV in E. apply NEXT in E. apply (step_same w p (QRewind k) lb r _ B). cbn [serve].
      unfold svm_rewind, locked, rt_rewind, gs_rewind, rewind. rewrite P, ND, E.
      destruct (N.ltb_spec k (2 ^ 63)); [|lia]. destruct (Z.ltb_spec (Z.of_N k) (Z.of_N l + 1)); [|lia].
      cbn [lift done]. destruct r as [[s q] c b]. cbn in *. now rewrite P.
  - intros D. split.
    { apply (step_same w p QUncommitted lb r _ B). cbn [serve]. unfold svm_uncommitted_changes, locked, gs_has_uncommitted_changes.
      unfold has_uncommitted_changes in D. rewrite P. destruct (st_dirty (gs_storage (rn_gs r))); [reflexivity|discriminate D]. }
    intros h l E. apply INV in E. split.
    + destruct (commit_spec (w_env w) _ HI HSt D) as (l1 & prev & fp & s' & L1 & Hc & L2 & _).
      rewrite E in L1. injection L1 as L1 _.
      destruct (step_on w p QCommit lb r B) as (lb1 & E1 & B1). cbn [serve] in E1, B1.
      assert (SV : svm_commit w r = (ROk, with_gs (mkGstate s' (gs_layer_param (rn_gs r))) r)).
      { unfold svm_commit, locked, rt_commit, gs_commit, gbind, gs_commit_raw. rewrite P, Hc. cbn [lift].
        unfold layer_of. destruct (Z.ltb_spec l1 0); [lia|]. reflexivity. }
      rewrite SV in E1, B1. cbn [fst snd] in E1, B1. exists lb1, fp. split; [exact E1|].
      replace (l + 1) with (Z.to_N l1) by lia. apply (INFO lb1 _ l1 fp B1); [exact P|exact L2|lia].
    + intros k K L. pose proof (NEXT _ _ E) as NX.
      destruct (step_on w p (QRewind k) lb r B) as (lb1 & E1 & B1). cbn [serve] in E1, B1.
      unfold has_uncommitted_changes in D. destruct (st_dirty (gs_storage (rn_gs r))) eqn:ND; [|discriminate D].
      pose (s' := snd (rewind (gs_storage (rn_gs r)) (Z.of_N k))).
      assert (RW : rewind (gs_storage (rn_gs r)) (Z.of_N k) = (Ok tt, s') /\ st_next_id s' = (Z.of_N k + 1)%Z).
      { unfold s', rewind. rewrite NX, ND. destruct (Z.ltb_spec (Z.of_N k) (Z.of_N l + 1)); [|lia]. split; reflexivity. }
      destruct RW as [RW NX'].
      assert (SV : svm_rewind k r = (ROk, mkRuntime (mkGstate s' (gs_layer_param (rn_gs r))) (rn_cache r) false)).
      { unfold svm_rewind, locked, rt_rewind, gs_rewind. rewrite P. destruct (N.ltb_spec k (2 ^ 63)); [|lia].
        rewrite RW. reflexivity. }
      rewrite SV in E1, B1. cbn [fst snd] in E1, B1.
      assert (RS : reachable (w_env w) s').
      { assert (G : gs_reachable (w_env w) (run_gop (w_env w) (GRewind k) (rn_gs r))) by (apply gr_op; [exact HS|exact Logic.I]).
        apply gs_reachable_storage in G. cbn [run_gop] in G. unfold gs_rewind in G.
        destruct (N.ltb_spec k (2 ^ 63)); [|lia]. rewrite RW in G. exact G. }
      destruct (reachable_R (w_env w) s' HI RS) as [v HV]. destruct (R_last_layer s' v HV) as (fp & LL & _).
      rewrite <- (R_next _ _ HV), NX' in LL. replace (Z.of_N k + 1 - 1)%Z with (Z.of_N k) in LL by lia.
      exists lb1, fp. split; [exact E1|]. pose proof (INFO lb1 _ (Z.of_N k) fp B1 eq_refl LL ltac:(lia)) as Q. now rewrite N2Z.id in Q.
Qed.
Print Assumptions C96_layers.
Definition fx_committed : list capi := firstn 3 fx_ops ++ [COn 16 QCommit].
Definition fx_committed_lib : library := snd (capi_run fx_world fx_committed library_start).
Example C96_layers_satisfiable :
  exists r, behind fx_lib 16 = Some r /\ rn_poisoned r = false
  /\ has_uncommitted_changes (gs_storage (rn_gs r)) = true
  /\ exists r', behind fx_committed_lib 16 = Some r'
     /\ answered fx_world library_start (combine fx_committed (fst (capi_run fx_world fx_committed library_start))) fx_committed_lib
     /\ rn_poisoned r' = false /\ has_uncommitted_changes (gs_storage (rn_gs r')) = false
     /\ (exists h, fst (capi_step fx_world (COn 16 QLayerInfo) fx_committed_lib) = RLayer h 0).
Proof.
  destruct (behind fx_lib 16) as [r|] eqn:E; [|vm_compute in E; discriminate E]. exists r. split; [reflexivity|].
  vm_compute in E. injection E as <-. split; [reflexivity|]. split; [vm_compute; reflexivity|].
  destruct (behind fx_committed_lib 16) as [r'|] eqn:E'; [|vm_compute in E'; discriminate E'].
  exists r'. split; [reflexivity|]. split; [vm_compute; reflexivity|]. vm_compute in E'. injection E' as <-.
  split; [reflexivity|]. split; [vm_compute; reflexivity|]. vm_compute. eexists. reflexivity.
Qed.
(** Every new runtime fails to tell its layer: the genesis layer has the number -1, which does
    not fit the answer. *)
Theorem C96_first_layer_refuted :
  ~ (forall w tr lb p r, world_wf w -> Forall (fun x => capi_wf (fst x)) tr -> answered w library_start tr lb ->
     behind lb p = Some r -> rn_poisoned r = false ->
     exists h l, fst (capi_step w (COn p QLayerInfo) lb) = RLayer h l).
Proof.
  intros H. destruct (behind (snd (capi_run fx_world (firstn 2 fx_ops) library_start)) 16) as [r|] eqn:E; [|vm_compute in E; discriminate E].
  destruct (H fx_world (combine (firstn 2 fx_ops) (fst (capi_run fx_world (firstn 2 fx_ops) library_start)))
              (snd (capi_run fx_world (firstn 2 fx_ops) library_start)) 16 r) as (h & l & K).
  - exact fx_world_wf.
  - assert (L : map fst (combine (firstn 2 fx_ops) (fst (capi_run fx_world (firstn 2 fx_ops) library_start))) = firstn 2 fx_ops)
      by (vm_compute; reflexivity).
    apply Forall_forall. intros x Hx. apply (in_map fst) in Hx. rewrite L in Hx. cbn in Hx.
    destruct Hx as [<-|[<-|[]]]; repeat constructor.
  - vm_compute. reflexivity.
  - exact E.
  - vm_compute in E. injection E as <-. reflexivity.
  - vm_compute in K. discriminate K.
Qed.
Print Assumptions C96_first_layer_refuted.

(** ** C85 Genesis accounts.
    What an account was created with is what a query returns, the counter being cut in two
    64-bit halves and put together again. *)
Theorem C85_genesis_account :
  forall w tr lb p addr b upper lower old lb1,
  world_wf w -> Forall (fun x => capi_wf (fst x)) tr -> answered w library_start tr lb ->
  array_wf 20 addr -> uint_wf 64 b -> uint_wf 64 upper -> uint_wf 64 lower ->
  capi_step w (COn p (QGenesisAccount addr b upper lower)) lb = (ROk, lb1) ->
  exists acc, capi_step w (COn p (QGetAccount addr old)) lb1 = (RAccount acc, lb1)
    /\ sa_balance acc = b /\ sa_upper acc = upper /\ sa_lower acc = lower /\ sa_template acc = w_sct w
    /\ svm_account_counter acc = upper * 2 ^ 64 + lower.
Proof.
  intros w tr lb p addr b upper lower old lb1 HW HF H Ha Hb Hu Hl E.
  destruct (behind lb p) as [r|] eqn:B.
  2:{ cbn [capi_step] in E. unfold on_runtime in E. unfold behind in B. rewrite B in E. discriminate E. }
  pose proof (trace_served w tr lb HW HF H p r B) as HR. unfold served in HR.
  destruct (step_on w p (QGenesisAccount addr b upper lower) lb r B) as (lb2 & E2 & B2).
  rewrite E in E2. injection E2 as E2 <-. cbn [serve] in *.
  unfold svm_create_genesis_account, locked in *. destruct (rn_poisoned r) eqn:P; [discriminate E2|].
  rewrite lor_halves in * by exact Hl.
  destruct (account_create (w_env w) addr [] (w_sct w) b (upper * 2 ^ 64 + lower) (rn_gs r)) as [[x| |] g'] eqn:EC; try discriminate E2.
  cbn [snd] in B2. destruct HW as (HI & HC & HH & HE & HG & Hs).
  assert (G : get_account (w_env w) addr g' = (Ok (Some (b, upper * 2 ^ 64 + lower, w_sct w)), g')).
  { apply (C81_created (w_env w) (w_engine w) (rn_gs r) (rn_cache r) addr [] (w_sct w) b (upper * 2 ^ 64 + lower) x g'); auto.
    split; [exact Ha|]. split; [split; [split; [discriminate|constructor]|reflexivity]|]. split; [exact Hs|]. split; [exact Hb|].
    now apply halves_bound. }
  eexists. split.
  { apply (step_same w p (QGetAccount addr old) lb1 _ _ B2). cbn [serve].
    unfold svm_get_account, locked. cbn [with_gs rn_poisoned rn_gs]. rewrite P, G. cbn [fst]. reflexivity. } cbn [sa_balance sa_upper sa_lower sa_template]. unfold svm_account_counter. cbn [sa_upper sa_lower].
  rewrite upper_half, lower_half, lor_halves by assumption. repeat split.
Qed.
Print Assumptions C85_genesis_account.

(** The record returned does not say whose account it is. *)
Theorem C85_address_refuted :
  ~ (forall w lb p addr old acc lb', capi_step w (COn p (QGetAccount addr old)) lb = (RAccount acc, lb') -> sa_address acc = addr).
Proof.
  intros H.
  destruct (capi_step fx_world (COn 16 (QGetAccount rx_b (mkSvmAccount (repeat 0 20) 0 0 0 (repeat 0 20)))) fx_lib) as [a lb'] eqn:E.
  assert (K : exists acc, a = RAccount acc /\ sa_address acc = repeat 0 20).
  { replace a with (fst (capi_step fx_world (COn 16 (QGetAccount rx_b (mkSvmAccount (repeat 0 20) 0 0 0 (repeat 0 20)))) fx_lib))
      by (rewrite E; reflexivity).
    vm_compute. eexists. split; reflexivity. }
  destruct K as (acc & -> & K). apply H in E. rewrite E in K. discriminate K.
Qed.
Print Assumptions C85_address_refuted.
Example C85_satisfiable :
  let lb := snd (capi_run fx_world (firstn 3 fx_ops) library_start) in
  answered fx_world library_start (firstn 3 fx_trace) lb
  /\ fst (capi_step fx_world (COn 16 (QGenesisAccount rx_b 50 1 7)) lb) = ROk.
Proof. split; vm_compute; reflexivity. Qed.

(** ** C86 Creating runtimes.
    An initialised library in which no creation failed can always make a runtime in memory. *)
Theorem C86_create_partial :
  forall w tr lb p g,
  answered w library_start tr lb -> In (CInit, ROk) tr -> (forall l q, ~ In (CCreate l q, RError) tr) ->
  gs_new (w_env w) empty_db (w_genesis w) = Some g ->
  exists lb', capi_step w (CCreate InMemory p) lb = (RHandle p, lb') /\ behind lb' p = Some (mkRuntime g [] false).
Proof.
  intros w tr lb p g H HI HN HG. destruct (creation_state w tr lb H HN) as [P I1]. specialize (I1 HI).
  cbn [capi_step]. unfold svm_runtime_create. rewrite P, I1. cbn [open_global]. rewrite HG. eexists. split; [reflexivity|].
  unfold behind, tracker_get, tracker_alloc. cbn [lb_runtimes tk_pointers tk_boxes box_at]. rewrite N.eqb_refl.
  destruct (contains p (tk_pointers (lb_runtimes lb))) eqn:E; [now rewrite E|]. rewrite contains_cons, N.eqb_refl. reflexivity.
Qed.
Print Assumptions C86_create_partial.
(** Before it is initialised the library makes no runtime and serves none, and what was tried
    in the meantime does no harm: it can be initialised afterwards. *)
Theorem C86_uninitialised :
  forall w tr lb, answered w library_start tr lb -> (forall a, ~ In (CInit, a) tr) ->
  (forall l p a, In (CCreate l p, a) tr -> a = RError) /\ (forall p q a, In (COn p q, a) tr -> a = RError)
  /\ fst (capi_step w CCount lb) = RCount 0 /\ fst (capi_step w CInit lb) = ROk.
Proof.
  intros w tr lb H N. enough (G : lb = library_start /\ (forall l p a, In (CCreate l p, a) tr -> a = RError) /\ (forall p q a, In (COn p q, a) tr -> a = RError))
    by (destruct G as (-> & G1 & G2); repeat split; assumption).
  revert H N. unfold answered. induction tr as [|[o a] tr IH]; intros H N.
  - cbn [map capi_run] in H. injection H as <-. split; [reflexivity|]. split; intros x y z [].
  - cbn [map fst snd capi_run] in H. assert (S : forall a1 lb1, capi_step w o library_start = (a1, lb1) -> lb1 = library_start /\
        match o with CCreate _ _ | COn _ _ => a1 = RError | _ => True end).
    { intros a1 lb1 E. destruct o; cbn in E; try (injection E as <- <-; split; [reflexivity|exact Logic.I || reflexivity]).
      exfalso. apply (N a). left. reflexivity. }
    destruct (capi_step w o library_start) as [a1 lb1] eqn:E. destruct (S a1 lb1 eq_refl) as [-> A]. clear S E.
    destruct (capi_run w (map fst tr) library_start) as [l lb2] eqn:E2. injection H as -> -> <-.
    destruct IH as (-> & G1 & G2); [reflexivity|intros x K; apply (N x); now right|]. split; [reflexivity|].
    split; intros x y z [K|K]; try (injection K as -> ->; exact A); [now apply (G1 x y)|now apply (G2 x y)].
Qed.
Print Assumptions C86_uninitialised.
Example C86_uninitialised_satisfiable :
  answered fx_world library_start [(CCreate InMemory 16, RError); (COn 16 QLayerInfo, RError); (CDestroy 16, RError)] library_start.
Proof. vm_compute. reflexivity. Qed.
(** One creation that fails once the library is initialised ends it: no runtime can be made
    any more, at any location, and initialising again crashes. *)
Theorem C86_lockout :
  forall w lb l p lb1 ops,
  lb_init lb = true -> capi_step w (CCreate l p) lb = (RError, lb1) ->
  forall lb2, lb2 = snd (capi_run w ops lb1) ->
  (forall l' q, fst (capi_step w (CCreate l' q) lb2) = RError) /\ fst (capi_step w CInit lb2) = RCrash.
Proof.
  intros w lb l p lb1 ops HI E lb2 ->.
  assert (P : lb_poisoned lb1 = true).
  { cbn [capi_step] in E. unfold svm_runtime_create in E. rewrite HI in E.
    destruct (lb_poisoned lb) eqn:P; [inversion E; subst; exact P|]. destruct (open_global w l); inversion E; subst; reflexivity. }
  pose proof (lockout_run w ops lb1 P) as Q. split.
  - intros l' q. cbn [capi_step]. unfold svm_runtime_create. now rewrite Q.
  - cbn [capi_step]. unfold svm_init. now rewrite Q.
Qed.
Print Assumptions C86_lockout.
(** And a creation fails whenever the database at the path was used before. *)
Theorem C86_reopen_refuted :
  ~ (forall w path d lb p,
     utf8_valid path = true -> lb_init lb = true -> lb_poisoned lb = false ->
     d = empty_db \/ (exists x, In x (db_layers d) /\ lr_id x = initial_layer_id) ->
     exists lb', capi_step w (CCreate (AtPath path (Some d)) p) lb = (RHandle p, lb')).
Proof.
  intros H.
  destruct (H fx_world (txt "a.sqlite") (st_db (gs_storage rx_start)) (mkLibrary true false tracker_default) 16) as [lb' E].
  - vm_compute. reflexivity.
  - reflexivity.
  - reflexivity.
  - right. vm_compute. eexists. split; [left; reflexivity|reflexivity].
  - assert (K : fst (capi_step fx_world (CCreate (AtPath (txt "a.sqlite") (Some (st_db (gs_storage rx_start)))) 16) (mkLibrary true false tracker_default)) = RError)
      by (vm_compute; reflexivity).
    rewrite E in K. discriminate K.
Qed.
Print Assumptions C86_reopen_refuted.
Example C86_satisfiable :
  answered fx_world library_start fx_trace fx_lib /\ In (CInit, ROk) fx_trace
  /\ (forall l q, ~ In (CCreate l q, RError) fx_trace)
  /\ gs_new (w_env fx_world) empty_db (w_genesis fx_world) <> None
  /\ fst (capi_step fx_world (CCreate (AtPath [255] (Some empty_db)) 64) fx_lib) = RError /\ lb_init fx_lib = true.
Proof.
  assert (T : fx_trace = combine fx_ops [ROk; RHandle 16; RHandle 32; ROk; ROk; RError; ROk; RError; RCount 1]) by (vm_compute; reflexivity).
  split; [vm_compute; reflexivity|]. split; [rewrite T; left; reflexivity|]. split.
  - intros l q K. rewrite T in K. unfold fx_ops in K. cbn [combine In] in K. intuition discriminate.
  - split; [vm_compute; discriminate|]. split; vm_compute; reflexivity.
Qed.

(** ** C87 Errors and the state.
    Requests that only look change nothing, and neither does using a handle that is not open. *)
Theorem C87_looking :
  forall w lb p q, only_looks q \/ behind lb p = None -> snd (capi_step w (COn p q) lb) = lb.
Proof.
  intros w lb p q H. destruct (behind lb p) as [r|] eqn:B.
  - destruct H as [H|H]; [|discriminate H]. pose proof (looks_stay w q r H) as S1. destruct (serve w q r) as [a r1] eqn:E. cbn [snd] in S1. subst.
    now rewrite (step_same w p q lb r a B E).
  - cbn [capi_step]. unfold on_runtime. fold (behind lb p). now rewrite B.
Qed.
Print Assumptions C87_looking.
(** A runtime stops working only through a rewind that aborts or a deployment that aborts; *)
Theorem C87_bricked_by :
  forall w q r, rn_poisoned r = false -> rn_poisoned (snd (serve w q r)) = true ->
  fst (serve w q r) = RError
  /\ ((exists l, q = QRewind l /\ fst (rt_rewind l (rn_gs r)) = Panic)
      \/ (exists v m c ev, q = QDeploy v m c /\ decoded dec_envelope v = Some ev /\ fst (deploy (w_env w) ev m (rn_gs r)) = None)).
Proof.
  intros w q r H P. pose proof (poisoning w q r H P) as K. split; [|exact K].
  destruct K as [(l & -> & K)|(v & m & c & ev & -> & E & K)]; cbn [serve] in *.
  - unfold svm_rewind, locked. rewrite H. destruct (rt_rewind l (rn_gs r)) as [o g']. cbn [fst] in *. subst. reflexivity.
  - unfold svm_deploy, svm_runtime_action. rewrite E. destruct (decoded dec_context c); [|reflexivity]. rewrite H.
    destruct (deploy (w_env w) ev m (rn_gs r)) as [o g']. cbn [fst] in *. subst. reflexivity.
Qed.
Print Assumptions C87_bricked_by.
(** then it answers nothing that needs its state, whatever it is asked. *)
Theorem C87_bricked_forever :
  forall w qs q r, rn_poisoned r = true -> needs_state q ->
  snd (serve_all w qs r) = r /\ fst (serve w q (snd (serve_all w qs r))) = RError.
Proof.
  intros w qs q r P N. rewrite (poisoned_all w qs r P). split; [reflexivity|]. now apply poisoned_refuses.
Qed.
Print Assumptions C87_bricked_forever.
(** So an error reply is not harmless: rewinding to a layer that is not there, or deploying a
    message that passed validation, makes the runtime useless. *)
Definition fx_rt : runtime := match behind fx_lib 16 with Some r => r | None => mkRuntime rx_start [] false end.
Theorem C87_error_harmless_refuted :
  ~ (forall w q q' r, fst (serve w q r) = RError -> fst (serve w q' r) = ROk -> fst (serve w q' (snd (serve w q r))) = ROk).
Proof.
  intros H.
  assert (K : fst (serve fx_world (QIncrease rx_b 1) (snd (serve fx_world (QRewind 77) fx_rt))) = RError) by (vm_compute; reflexivity).
  rewrite (H fx_world (QRewind 77) (QIncrease rx_b 1) fx_rt) in K.
  - discriminate K.
  - vm_compute. reflexivity.
  - vm_compute. reflexivity.
Qed.
Print Assumptions C87_error_harmless_refuted.
Theorem C87_validated_harmless_refuted :
  ~ (forall w v m c q' r, fst (serve w (QValidateDeploy m) r) = ROk -> fst (serve w q' r) = ROk ->
     fst (serve w q' (snd (serve w (QDeploy v m c) r))) = ROk).
Proof.
  intros H.
  assert (K : fst (serve fx_world (QIncrease rx_b 1) (snd (serve fx_world (QDeploy fx_env_bytes rx_many fx_ctx_bytes) fx_rt))) = RError) by (vm_compute; reflexivity).
  rewrite (H fx_world fx_env_bytes rx_many fx_ctx_bytes (QIncrease rx_b 1) fx_rt) in K.
  - discriminate K.
  - vm_compute. reflexivity.
  - vm_compute. reflexivity.
Qed.
Print Assumptions C87_validated_harmless_refuted.
Example C87_satisfiable :
  rn_poisoned fx_rt = false /\ rn_poisoned (snd (serve fx_world (QRewind 77) fx_rt)) = true
  /\ only_looks QLayerInfo /\ behind fx_lib 16 = Some fx_rt /\ behind fx_lib 32 = None /\ needs_state QCommit.
Proof. repeat split; vm_compute; reflexivity. Qed.
