(** Properties C86 and C87, exactly. *)
From Coq Require Import String.
From Coq Require Import List NArith ZArith Bool Lia ZifyBool ZifyNat ZifyN.
From Verif Require Import Base Text CodecModel CodecSpec CodecProofs ReceiptModel ReceiptSpec ReceiptProofs.
From Verif Require Import LayoutModel SectionModel SectionSpec SectionProofs StorageModel StorageSpec StorageProofs.
From Verif Require Import GlobalModel GlobalSpec GlobalProofs RuntimeModel RuntimeSpec RuntimeProofs RuntimeProps.
From Verif Require Import ObserveProofs ObserveProps FfiModel FfiSpec FfiProofs FfiProps FfiExactSpec NodeExactSpec NodeExactProps AdminSpec AdminProps.
From Verif Require Import OutcomeProofs.
From Verif Require TemplateSpec TemplateProps.
Import ListNotations.
Open Scope list_scope.
Open Scope N_scope.

(** ** C86 *)
Lemma library_state w tr : forall lb, answered w library_start tr lb ->
  (lb_init lb = true <-> In (CInit, ROk) tr) /\ (lb_poisoned lb = true <-> failed_creation tr).
Proof.
  induction tr as [|x tr IH] using rev_ind; intros lb H.
  - apply answered_nil in H. subst. split; (split; [discriminate|]); [intros []|]. intros (tr1 & l & p & tr2 & E & _). now destruct tr1.
  - apply answered_app in H as (lb1 & H1 & H2). apply answered_cons in H2 as (lb2 & H2 & H3). apply answered_nil in H3. subst lb2.
    destruct (IH lb1 H1) as [I1 P1]. destruct x as [o a]. cbn [fst snd] in H2.
    assert (FS : failed_creation (tr ++ [(o, a)]) <-> failed_creation tr \/ ((exists l p, o = CCreate l p) /\ a = RError /\ In (CInit, ROk) tr)).
    { split.
      - intros (tr1 & l & p & tr2 & E & K). destruct tr2 as [|y tr2] using rev_ind.
        + apply app_inj_tail in E. destruct E as [-> [= -> ->]]. right. eauto.
        + clear IHtr2. rewrite app_comm_cons, app_assoc in E. apply app_inj_tail in E. destruct E as [-> _]. left. exists tr1, l, p, tr2. auto.
      - intros [(tr1 & l & p & tr2 & -> & K)|((l & p & ->) & -> & K)].
        + exists tr1, l, p, (tr2 ++ [(o, a)]). rewrite <- app_assoc. auto.
        + exists tr, l, p, []. auto. }
    assert (IS : In (CInit, ROk) (tr ++ [(o, a)]) <-> In (CInit, ROk) tr \/ (o = CInit /\ a = ROk)).
    { rewrite in_app_iff. cbn [In]. split; [intros [K|[K|[]]]; [auto|injection K as -> ->; auto]|intros [K|[-> ->]]; auto]. }
    rewrite FS, IS, <- I1, <- P1.
    assert (PI : lb_poisoned lb1 = true -> lb_init lb1 = true).
    { rewrite P1, I1. intros (tr1 & l & p & tr2 & -> & K). apply in_or_app. now left. }
    destruct o as [|l q|q| |q y]; cbn [capi_step] in H2; unfold svm_init, svm_runtime_create, svm_runtime_destroy, svm_runtimes_count, on_runtime in H2.
    + destruct (lb_poisoned lb1) eqn:P; injection H2 as <- <-; cbn [lb_init lb_poisoned].
      * rewrite P. split; [split; [auto|intros [K|[_ K]]; [exact K|discriminate]]|]. split; [auto|reflexivity].
      * split; [split; [auto|reflexivity]|]. split; [discriminate|]. intros [K|((l & p & K) & _)]; discriminate.
    + destruct (lb_poisoned lb1) eqn:P.
      * injection H2 as <- <-. rewrite P. split; [split; [auto|intros [K|[K _]]; [exact K|discriminate]]|]. split; [auto|reflexivity].
      * destruct (lb_init lb1) eqn:EI.
        -- destruct (open_global w l); injection H2 as <- <-; cbn [lb_init lb_poisoned].
           ++ split; [tauto|]. split; [discriminate|]. intros [K|(_ & K & _)]; discriminate.
           ++ split; [tauto|]. split; [intros _; right; eauto|reflexivity].
        -- injection H2 as <- <-. rewrite EI, P. split; [split; [discriminate|intros [K|[K _]]; discriminate]|]. split; [discriminate|]. intros [K|(_ & _ & K)]; discriminate.
    + assert (S : lb_init lb = lb_init lb1 /\ lb_poisoned lb = lb_poisoned lb1) by (destruct (tracker_free _ _); injection H2 as _ <-; auto).
      destruct S as [-> ->]. split; (split; [auto|]); [intros [K|[K _]]|intros [K|((l & p & K) & _)]]; try discriminate; auto.
    + assert (S : lb_init lb = lb_init lb1 /\ lb_poisoned lb = lb_poisoned lb1) by (injection H2 as _ <-; auto).
      destruct S as [-> ->]. split; (split; [auto|]); [intros [K|[K _]]|intros [K|((l & p & K) & _)]]; try discriminate; auto.
    + assert (S : lb_init lb = lb_init lb1 /\ lb_poisoned lb = lb_poisoned lb1) by (destruct (tracker_get _ _) as [r|]; [destruct (serve w y r)|]; injection H2 as _ <-; auto).
      destruct S as [-> ->]. split; (split; [auto|]); [intros [K|[K _]]|intros [K|((l & p & K) & _)]]; try discriminate; auto.
Qed.

(** A runtime is made exactly if the library was initialised, no creation failed since, and the
    place is free.  Otherwise the answer is an error. *)
Theorem C86_create_exactly :
  forall w tr lb l p,
  world_wf w -> TemplateSpec.genesis_wf (w_genesis w) -> answered w library_start tr lb -> location_wf l ->
  (fst (capi_step w (CCreate l p) lb) = RHandle p <-> In (CInit, ROk) tr /\ ~ failed_creation tr /\ free_place l)
  /\ (fst (capi_step w (CCreate l p) lb) = RHandle p \/ fst (capi_step w (CCreate l p) lb) = RError).
Proof.
  intros w tr lb l p (HI & HC & HH & HE & _) HG H Hl. destruct (library_state w tr lb H) as [I1 P1]. rewrite <- I1, <- P1.
  assert (G : exists g, gs_new (w_env w) empty_db (w_genesis w) = Some g).
  { destruct (TemplateProps.C108_genesis_starts _ (w_engine w) _ HI HC HG) as (g & fp & E & _). eauto. }
  assert (O : open_global w l <> None <-> free_place l).
  { destruct G as [g G]. destruct l as [|path contents]; cbn [open_global free_place].
    - rewrite G. split; [auto|discriminate].
    - destruct (utf8_valid path); [|split; [congruence|intros [K _]; discriminate]].
      destruct contents as [d|]; [|split; [congruence|intros [_ K]; discriminate]].
      destruct Hl as [->|Hl]; [rewrite G; split; [auto|discriminate]|].
      unfold gs_new. rewrite (reopen_fails d Hl). split; [congruence|]. intros [_ [= ->]]. destruct Hl as (x & [] & _). }
  cbn [capi_step]. unfold svm_runtime_create.
  destruct (lb_poisoned lb); [cbn [fst]; split; [split; [discriminate|intros (_ & K & _); now elim K]|now right]|].
  destruct (lb_init lb); [|cbn [fst]; split; [split; [discriminate|intros (K & _); discriminate]|now right]].
  destruct (open_global w l) as [g|]; cbn [fst].
  - split; [|now left]. split; [|reflexivity]. intros _. split; [reflexivity|]. split; [discriminate|]. apply O. discriminate.
  - split; [|now right]. split; [discriminate|]. intros (_ & _ & K). apply O in K. now elim K.
Qed.
Print Assumptions C86_create_exactly.
Lemma fx_genesis_wf : TemplateSpec.genesis_wf (w_genesis fx_world).
Proof.
  split; [apply NoDup_cons; [intros []|constructor]|]. constructor; [|constructor].
  split; [exact rx_a_wf|]. split; [exact fx_sections_wf|].
  intros k [<-|[<-|[<-|[]]]]; cbn; auto.
Qed.
Definition fx_broken : list capi := [CCreate InMemory 16; CInit; CCreate InMemory 16; CCreate (AtPath [255] (Some empty_db)) 32].
Example C86_create_satisfiable :
  world_wf fx_world /\ TemplateSpec.genesis_wf (w_genesis fx_world) /\ answered fx_world library_start fx_trace fx_lib
  /\ location_wf (AtPath (txt "a.sqlite") (Some empty_db)) /\ free_place (AtPath (txt "a.sqlite") (Some empty_db))
  /\ fst (capi_step fx_world (CCreate (AtPath (txt "a.sqlite") (Some empty_db)) 64) fx_lib) = RHandle 64
  /\ fst (capi_run fx_world fx_broken library_start) = [RError; ROk; RHandle 16; RError]
  /\ failed_creation (combine fx_broken [RError; ROk; RHandle 16; RError])
  /\ fst (capi_step fx_world (CCreate InMemory 64) (snd (capi_run fx_world fx_broken library_start))) = RError.
Proof.
  split; [exact fx_world_wf|]. split; [exact fx_genesis_wf|]. split; [exact (proj1 C86_satisfiable)|]. split; [now left|].
  split; [split; vm_compute; reflexivity|]. split; [vm_compute; reflexivity|]. split; [vm_compute; reflexivity|].
  split; [|vm_compute; reflexivity].
  exists [(CCreate InMemory 16, RError); (CInit, ROk); (CCreate InMemory 16, RHandle 16)], (AtPath [255] (Some empty_db)), 32, [].
  split; [reflexivity|]. right. left. reflexivity.
Qed.

(** ** C87 *)
(** What makes a runtime useless: going back to a layer that was never committed, and deploying
    an affordable template that was read but cannot be written. *)
Theorem C87_bricked_exactly :
  forall w q r c,
  world_wf w -> rt_reachable (w_env w) (w_engine w) (rn_gs r) c -> rn_poisoned r = false -> request_wf q ->
  (rn_poisoned (snd (serve w q r)) = true <->
     (exists l, q = QRewind l /\ (2 ^ 63 <= l \/ ~ committed_layer (rn_gs r) l))
     \/ (exists v m ctx ev l rest, q = QDeploy v m ctx /\ decoded dec_envelope v = Some ev /\ decoded dec_context ctx <> None
           /\ dec_sections None m = Ok (l, rest) /\ affords (env_gas_limit ev) m /\ In KCode (map section_kind_of l) /\ ~ storable l)).
Proof.
  intros w q r c (HI & HC & HH & HE & HG & _) HR H Hq.
  split.
  - intros P. destruct (poisoning w q r H P) as [(l & -> & K)|(v & m & ctx & ev & -> & E & K)].
    + left. exists l. split; [reflexivity|]. destruct (C125_rewind_exactly _ _ _ _ l HI HC HH HE HR) as [A _].
      destruct (N.ltb_spec l (2 ^ 63)) as [L|L]; [right|left; lia]. intros CL. specialize (A L CL).
      destruct (has_uncommitted_changes _); [rewrite A in K; discriminate|]. destruct A as (g' & A & _). rewrite A in K. discriminate.
    + right. destruct Hq as (_ & B & _). cbn [serve] in P. unfold svm_deploy, svm_runtime_action in P. rewrite E in P.
      destruct (decoded dec_context ctx) eqn:Ec; [|cbn [snd] in P; congruence].
      apply (C66_deploys_exactly _ _ _ _ ev m HI HC HH HE HR B) in K.
      rewrite H in P. destruct (deploy (w_env w) ev m (rn_gs r)) as [o g'] eqn:Ed. cbn [snd rn_poisoned] in P.
      unfold deploy_poisons, decoded in P. destruct (dec_sections None m) as [[l rest]|?|] eqn:D; try discriminate.
      destruct K as [K|(Af & l' & rest' & [= <- <-] & K)]; [now elim (K l rest)|].
      exists v, m, ctx, ev, l, rest. split; [reflexivity|]. split; [exact E|]. split; [congruence|]. split; [exact D|]. split; [exact Af|].
      assert (C : In KCode (map section_kind_of l)). { apply code_of_in. intros C. rewrite C in P. destruct (gas_lt _ _) in P; discriminate. }
      split; [exact C|]. destruct K as [K|K]; [contradiction|exact K].
  - intros [(l & -> & K)|(v & m & ctx & ev & l & rest & -> & E & Ec & D & Af & C & St)].
    + cbn [serve]. unfold svm_rewind, locked. rewrite H. destruct (C125_rewind_exactly _ _ _ _ l HI HC HH HE HR) as [_ A]. rewrite (A K). reflexivity.
    + destruct Hq as (_ & B & _). cbn [serve]. unfold svm_deploy, svm_runtime_action. rewrite E. destruct (decoded dec_context ctx); [|now elim Ec].
      rewrite H. destruct (C66_deploys_exactly _ _ _ _ ev m HI HC HH HE HR B) as (_ & _ & A).
      assert (X : fst (deploy (w_env w) ev m (rn_gs r)) = None) by (apply A; right; split; [exact Af|]; exists l, rest; auto). clear A.
      apply code_of_in in C. destruct (deploy (w_env w) ev m (rn_gs r)) as [o g'] eqn:Ed. cbn [fst] in X. subst o. cbn [snd rn_poisoned].
      unfold deploy in Ed. unfold deploy_poisons. unfold decoded in *. rewrite D in *.
      destruct (gas_lt _ _); [discriminate|]. destruct (code_of l) as [code|]; [|now elim C].
      destruct (template_create _ _ _ _ _) as [[u|er|] g2]; try reflexivity. discriminate.
Qed.
Print Assumptions C87_bricked_exactly.
Example C87_bricked_satisfiable :
  world_wf fx_world /\ (exists c, rt_reachable (w_env fx_world) (w_engine fx_world) (rn_gs (mkRuntime rx_state [] false)) c)
  /\ request_wf (QRewind 77) /\ rn_poisoned (snd (serve fx_world (QRewind 77) (mkRuntime rx_state [] false))) = true
  /\ request_wf (QDeploy fx_env_bytes rx_many fx_ctx_bytes)
  /\ rn_poisoned (snd (serve fx_world (QDeploy fx_env_bytes rx_many fx_ctx_bytes) (mkRuntime rx_state [] false))) = true
  /\ rn_poisoned (snd (serve fx_world (QDeploy fx_env_bytes (rx_deploy 1) fx_ctx_bytes) (mkRuntime rx_state [] false))) = false
  /\ rn_poisoned (snd (serve fx_world (QDeploy fx_env_bytes [0; 0] fx_ctx_bytes) (mkRuntime rx_state [] false))) = false.
Proof.
  split; [exact fx_world_wf|]. split; [eexists; exact rx_reachable|]. split; [exact I|]. split; [vm_compute; reflexivity|]. split.
  { split; [|split]; [split; [reflexivity|]|..|split; [reflexivity|]]; apply bytes_okb_ok; vm_compute; reflexivity. }
  split; [vm_compute; reflexivity|]. split; vm_compute; reflexivity.
Qed.

(** ** C96 *)
(** A runtime that cannot tell its layer has committed none: the first commit makes layer 0,
    which it then tells, and there is no layer to go back to. *)
Theorem C96_before_first_commit :
  forall w tr lb p r,
  world_wf w -> Forall (fun x => capi_wf (fst x)) tr -> answered w library_start tr lb ->
  behind lb p = Some r -> rn_poisoned r = false ->
  (exists h l, capi_step w (COn p QLayerInfo) lb = (RLayer h l, lb))
  \/ capi_step w (COn p QLayerInfo) lb = (RError, lb)
     /\ (forall l, ~ committed_layer (rn_gs r) l)
     /\ (forall k, fst (capi_step w (COn p (QRewind k)) lb) = RError)
     /\ (capi_step w (COn p QUncommitted) lb = (ROk, lb) ->
           exists lb1 h1, capi_step w (COn p QCommit) lb = (ROk, lb1) /\ capi_step w (COn p QLayerInfo) lb1 = (RLayer h1 0, lb1)).
Proof.
  intros w tr lb p r HW HF H B P. pose proof (trace_served w tr lb HW HF H p r B) as HR. unfold served in HR.
  destruct HW as (HI & HC & HH & HE & _).
  pose proof (rt_live (w_env w) (w_engine w) (rn_gs r) (rn_cache r) HI HC HH HE HR) as HL.
  pose proof (live_next _ _ HI HL) as HN. pose proof (current_layer_live _ _ HI HL) as CL.
  assert (INFO : forall lb r, behind lb p = Some r -> rn_poisoned r = false ->
            capi_step w (COn p QLayerInfo) lb = (match fst (gs_current_layer (rn_gs r)) with Ok (l, f) => RLayer f l | _ => RError end, lb)).
  { intros lb0 r0 B0 P0. apply (step_same w p QLayerInfo lb0 r0 _ B0). cbn [serve]. unfold svm_layer_info, locked.
    rewrite P0. unfold gs_current_layer, gbind. destruct (last_layer (gs_storage (rn_gs r0))) as [[z f]|er|]; cbn [lift]; [|destruct r0; reflexivity..].
    unfold layer_of. destruct (z <? 0)%Z; destruct r0; reflexivity. }
  rewrite (INFO lb r B P). destruct (Z.eq_dec (st_next_id (gs_storage (rn_gs r))) 0) as [Z|Z].
  - right. rewrite Z in CL. rewrite CL. split; [reflexivity|].
    assert (NC : forall l, ~ committed_layer (rn_gs r) l) by (intros l (n & fp & E & _); congruence). split; [exact NC|]. split.
    + intros k. destruct (step_on w p (QRewind k) lb r B) as (lb1 & E1 & _). rewrite E1. cbn [fst serve]. unfold svm_rewind, locked. rewrite P.
      destruct (C125_rewind_exactly _ _ _ _ k HI HC HH HE HR) as [_ A]. rewrite (A (or_intror (NC k))). reflexivity.
    + intros U. destruct (step_on w p QUncommitted lb r B) as (lb0 & E0 & _). rewrite U in E0. injection E0 as E0 _.
      cbn [serve] in E0. unfold svm_uncommitted_changes, locked, gs_has_uncommitted_changes in E0. rewrite P in E0.
      assert (D : has_uncommitted_changes (gs_storage (rn_gs r)) = false)
        by (unfold has_uncommitted_changes; destruct (st_dirty (gs_storage (rn_gs r))); [reflexivity|discriminate E0]).
      destruct HL as [HS _]. destruct (commit_spec (w_env w) _ HI (gs_reachable_storage (w_env w) (rn_gs r) HS) D) as (l1 & prev & fp & s' & L1 & Hc & L2 & _).
      destruct (step_on w p QCommit lb r B) as (lb1 & E1 & B1). cbn [serve] in E1, B1.
      assert (l1 = 0%Z). { revert L1. unfold last_layer. rewrite Z. cbn [Z.ltb initial_layer_id]. destruct (layer_fingerprint _ _ _) in |- *; cbn; intros [= X _]; lia. }
      subst l1.
      assert (SV : svm_commit w r = (ROk, with_gs (mkGstate s' (gs_layer_param (rn_gs r))) r)).
      { unfold svm_commit, locked, rt_commit, gs_commit, gbind, gs_commit_raw. rewrite P, Hc. reflexivity. }
      rewrite SV in E1, B1. cbn [fst snd] in E1, B1. exists lb1, fp. split; [exact E1|].
      rewrite (INFO lb1 _ B1 P). cbn [with_gs rn_gs]. unfold gs_current_layer, gbind. cbn [gs_storage]. rewrite L2. reflexivity.
  - left. destruct (st_next_id (gs_storage (rn_gs r))) as [|q|q]; [now elim Z| |lia]. destruct CL as [fp ->]. eauto.
Qed.
Print Assumptions C96_before_first_commit.
Example C96_before_first_commit_satisfiable :
  world_wf fx_world /\ Forall (fun x => capi_wf (fst x)) [(CInit, ROk); (CCreate InMemory 16, RHandle 16)]
  /\ answered fx_world library_start [(CInit, ROk); (CCreate InMemory 16, RHandle 16)] (snd (capi_run fx_world [CInit; CCreate InMemory 16] library_start))
  /\ (exists r, behind (snd (capi_run fx_world [CInit; CCreate InMemory 16] library_start)) 16 = Some r /\ rn_poisoned r = false)
  /\ fst (capi_run fx_world [CInit; CCreate InMemory 16; COn 16 QLayerInfo; COn 16 QUncommitted] library_start) = [ROk; RHandle 16; RError; ROk]
  /\ match fst (capi_run fx_world [CInit; CCreate InMemory 16; COn 16 QCommit; COn 16 QLayerInfo] library_start) with
     | [_; _; ROk; RLayer _ 0] => True | _ => False end.
Proof.
  split; [exact fx_world_wf|]. split; [repeat constructor|]. split; [vm_compute; reflexivity|].
  split; [eexists; split; vm_compute; reflexivity|]. split; [vm_compute; reflexivity|]. vm_compute. exact I.
Qed.
