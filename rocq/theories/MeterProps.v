(** C105: gas limits of transactions. *)
From Coq Require Import String List NArith ZArith Bool Lia ZifyBool ZifyNat ZifyN.
From Verif Require Import Base Text CodecModel CodecSpec ReceiptModel ReceiptSpec LayoutModel SectionModel SectionSpec StorageModel StorageSpec.
From Verif Require Import GlobalModel GlobalSpec GlobalProofs RuntimeModel RuntimeSpec RuntimeProofs RuntimeProps FfiModel FfiSpec FfiProofs FfiProps MeterSpec.
Import ListNotations.
Open Scope string_scope.
Open Scope list_scope.
Open Scope N_scope.

(** ** C105 No transaction runs on less gas than it costs *)

(** A spawn whose limit does not exceed the price of its message and its constructor is out of
    gas, and changes nothing.  For deployments see C30. *)
Theorem C105_spawn :
  forall w ev m sp c g l names price n,
  decoded dec_spawn m = Some sp -> fst (template_sections (w_env w) (sp_template sp) g) = Ok l ->
  ctors_of l = Some names -> In (sp_ctor sp) names -> remembers_right w g c ->
  template_price w g (sp_template sp) (sp_ctor sp) price ->
  env_gas_limit ev = Some n -> n <= 1000 * nlen m + price ->
  exists rc c', spawn (w_env w) (w_engine w) ev m c g = (Some rc, c', g) /\ sr_success rc = false /\ sr_error rc = Some OOG.
Proof.
  intros w ev m sp c g l names price n Ed El Hc Hin Rc (l' & cs & exports & prices & index & El' & Ec & Em & Ee & Ei & Ep & Epi) Hg Hn.
  rewrite El in El'. injection El' as <-. pose proof (Rc _ _ _ (match fst (price_of (w_engine w) (sp_template sp) (cs_code cs) c) with Some p => p | None => fun _ => None end) El Ec) as Rc'.
  unfold spawn. rewrite Ed. pose proof (reads_sections (w_env w) (sp_template sp) g) as R.
  destruct (template_sections (w_env w) (sp_template sp) g) as [o g0]. cbn [fst snd] in *. subst.
  assert (Hi : is_ctor l (sp_ctor sp) = Some true).
  { unfold is_ctor. rewrite Hc. cbn [obind]. f_equal. apply existsb_exists. exists (sp_ctor sp). split; auto. now apply ReceiptProofs.bytes_eqb_spec. }
  unfold ensure_ctor, sbind. rewrite Hi. cbn [ssome sret]. rewrite Hg.
  unfold check_gas_for_payload, tank_new, spawn_price. destruct (N.ltb_spec 0 n) as [L|L]; cbn [tank_is_empty consume]; [|cbn [check_gas_for_func tank_is_empty]; unfold check_gas_for_func; cbn [tank_is_empty]; eauto].
  destruct (N.ltb_spec (1000 * nlen m) n) as [L2|L2]; cbn [tank_is_empty]; unfold check_gas_for_func; cbn [tank_is_empty]; [|eauto].
  rewrite Ec, Ee, Em, Ei. unfold price_of in *. destruct (cache_get (sp_template sp) c) as [p|] eqn:Eg.
  - cbn [fst] in Rc'. specialize (Rc' eq_refl). rewrite Ep in Rc'. injection Rc' as <-. cbn [obind]. rewrite Epi. cbn [obind consume].
    replace (price <? n - 1000 * nlen m) with false by lia. eauto.
  - rewrite Ep. cbn [obind]. rewrite Epi. cbn [obind consume]. replace (price <? n - 1000 * nlen m) with false by lia. eauto.
Qed.
Print Assumptions C105_spawn.
(** Calls and verifications do not look at the limit: with any two envelopes they do the same. *)
Theorem C105_calls_ignore_limit :
  forall w v v' ev ev' m c r,
  decoded dec_envelope v = Some ev -> decoded dec_envelope v' = Some ev' ->
  FfiModel.svm_call w v m c r = FfiModel.svm_call w v' m c r /\ FfiModel.svm_verify w v m c r = FfiModel.svm_verify w v' m c r.
Proof. intros w v v' ev ev' m c r E E'. unfold FfiModel.svm_call, FfiModel.svm_verify, svm_runtime_action. rewrite E, E'. auto. Qed.
Print Assumptions C105_calls_ignore_limit.
(** Neither spawns nor calls report the gas they used. *)
Lemma exec_no_gas e en cl g r g' : exec_call e en cl g = (Some r, g') -> cr_gas_used r = None.
Proof.
  unfold exec_call. destruct (exec e en cl g) as [[r0|[err logs]|] g0] eqn:E; intros [= <- <-]; [|reflexivity].
  unfold exec, outcome_to_receipt, sbind, sret in E.
  repeat match type of E with
  | (let (_, _) := ?x in _) = _ => destruct x as [? ?] eqn:?
  | context [match ?x with (_, _) => _ end] => destruct x as [? ?] eqn:?; try discriminate E
  | context [match ?x with Ok _ => _ | Err _ => _ | Panic => _ end] => destruct x eqn:?; try discriminate E
  end.
  all: try (injection E as <- <-; reflexivity).
Qed.
Theorem C105_nothing_reported :
  forall e en m g,
  (forall r g', rt_call e en m g = (Some r, g') -> cr_gas_used r = None) /\
  (forall r g', RuntimeModel.verify e en m g = (Some r, g') -> cr_gas_used r = None) /\
  (forall ev c r c' g', spawn e en ev m c g = (Some r, c', g') -> sr_gas_used r = None).
Proof.
  intros e en m g. split; [|split].
  - intros r g'. unfold rt_call, transact. destruct (decoded dec_transaction m); [|discriminate]. destruct (build_call _ _ _ _ _ g) as [[cl|?|] g1]; try discriminate. apply exec_no_gas.
  - intros r g'. unfold RuntimeModel.verify, transact. destruct (decoded dec_transaction m); [|discriminate]. destruct (build_call _ _ _ _ _ g) as [[cl|?|] g1]; try discriminate. apply exec_no_gas.
  - intros ev c r c' g'. unfold spawn. destruct (decoded dec_spawn m) as [sp|]; [|discriminate]. destruct (template_sections e _ g) as [[l|?|] g1]; try discriminate.
    destruct (ensure_ctor _ _ _ g1) as [[?|[err logs]|] g2]; try discriminate; [|intros [= <- <- <-]; reflexivity].
    destruct (check_gas_for_func _ _ _ _ _ c) as [[[k|]|] c1]; try discriminate; [|intros [= <- <- <-]; reflexivity].
    destruct (account_create e _ _ _ 0 0 g2) as [[?|?|] g3]; try discriminate. unfold call_ctor.
    destruct (exec_call e en _ g3) as [[rc|] g4] eqn:Ex; [|discriminate]. apply exec_no_gas in Ex. unfold into_spawn_receipt. cbn [cr_success cr_error cr_gas_used cr_logs].
    destruct (cr_success rc); [intros [= <- <- <-]; exact Ex|]. destruct (cr_error rc); cbn [obind]; [intros [= <- <- <-]; reflexivity|discriminate].
Qed.
Print Assumptions C105_nothing_reported.
(** So the claim is false for calls: a runtime with the account of a template, whose function
    costs ten, runs it on a limit of one. *)
Definition mx_ops : list capi :=
  [CInit; CCreate InMemory 16; COn 16 (QSpawn fx_env_bytes (rx_spawn 1 (txt "init")) fx_ctx_bytes)].
Definition mx_lib : library := snd (capi_run fx_world mx_ops library_start).
Definition mx_cheap : bytes := match enc_envelope (rx_envelope (Some 1)) with Some b => b | None => [] end.
Theorem C105_call_limit_refuted :
  ~ (forall w ops p r v m c ev tx price n bs rc r',
     world_wf w -> behind (snd (capi_run w ops library_start)) p = Some r ->
     decoded dec_envelope v = Some ev -> env_gas_limit ev = Some n ->
     decoded dec_transaction m = Some tx -> function_price w (rn_gs r) (tx_target tx) (tx_func_name tx) price ->
     FfiModel.svm_call w v m c r = (RReceipt bs, r') -> decoded dec_call_receipt bs = Some rc -> cr_success rc = true ->
     price <= n).
Proof.
  intros H.
  destruct (behind (snd (capi_run fx_world mx_ops library_start)) 16) as [r|] eqn:Er; [|vm_compute in Er; discriminate Er].
  set (res := FfiModel.svm_call fx_world mx_cheap (rx_call (txt "set")) fx_ctx_bytes r).
  assert (X : exists bs rc, res = (RReceipt bs, snd res) /\ decoded dec_call_receipt bs = Some rc /\ cr_success rc = true).
  { unfold res. vm_compute in Er. injection Er as <-. eexists. eexists. split; [vm_compute; reflexivity|]. split; vm_compute; reflexivity. }
  destruct X as (bs & rc & E1 & E2 & E3).
  assert (D1 : decoded dec_envelope mx_cheap = Some (rx_envelope (Some 1))) by (vm_compute; reflexivity).
  assert (D2 : decoded dec_transaction (rx_call (txt "set")) = Some (mkTransaction 0 rx_a (txt "set") [] [1; 2; 3])) by (vm_compute; reflexivity).
  assert (P : function_price fx_world (rn_gs r) rx_a (txt "set") 10).
  { clear - Er. exists (rx_taddr 1). vm_compute in Er. injection Er as <-. split; [vm_compute; reflexivity|].
    do 5 eexists. split; [vm_compute; reflexivity|]. split; [reflexivity|]. split; [reflexivity|]. split; [reflexivity|]. split; [reflexivity|]. split; reflexivity. }
  assert (L : 10 <= 1) by exact (H fx_world mx_ops 16 r mx_cheap (rx_call (txt "set")) fx_ctx_bytes _ _ 10 1 bs rc (snd res) fx_world_wf Er D1 eq_refl D2 P E1 E2 E3).
  lia.
Qed.
Print Assumptions C105_call_limit_refuted.
Example C105_satisfiable :
  exists r, behind mx_lib 16 = Some r /\ remembers_right fx_world (rn_gs r) (rn_cache r) /\
  template_price fx_world (rn_gs r) (rx_taddr 1) (txt "init") 10 /\
  fst (FfiModel.svm_call fx_world mx_cheap (rx_call (txt "set")) fx_ctx_bytes r) = fst (FfiModel.svm_call fx_world fx_env_bytes (rx_call (txt "set")) fx_ctx_bytes r).
Proof.
  destruct (behind mx_lib 16) as [r|] eqn:Er; [|vm_compute in Er; discriminate Er]. exists r. split; [reflexivity|]. split.
  - intros template l cs p _ _ Hc. assert (Ec : rn_cache r = [(rx_taddr 1, fun _ => Some 10)]) by (vm_compute in Er; injection Er as <-; reflexivity).
    rewrite Ec in Hc. unfold cache_get in Hc. cbn in Hc. destruct (bytes_eqb _ _) in Hc; [|discriminate Hc]. injection Hc as <-. reflexivity.
  - split; [|now apply (f_equal fst); eapply C105_calls_ignore_limit; vm_compute; reflexivity].
    vm_compute in Er. injection Er as <-. do 5 eexists.
    split; [vm_compute; reflexivity|]. split; [vm_compute; reflexivity|]. split; [reflexivity|]. split; [reflexivity|]. split; [reflexivity|]. split; reflexivity.
Qed.

(** ** C105 Amounts of gas *)

(** Adding to a limit adds, overflows beyond the largest amount and leaves no limit alone;
    subtracting gives what is left or runs out, never less than nothing; what was added can be
    taken back; no limit is above every amount. *)
Theorem C105_gas_amounts :
  forall n,
  (forall l, l <= 18446744073709551615 -> n <= 18446744073709551615 ->
     gas_add (Some l) n = (if l + n <? 18446744073709551616 then Some (Some (l + n)) else None)
     /\ (forall g, gas_add (Some l) n = Some g -> gas_sub g n = Some (Some l))
     /\ (gas_sub (Some l) n = None <-> l < n)
     /\ (forall r, gas_sub (Some l) n = Some (Some r) <-> r + n = l)
     /\ gas_sub (Some l) n <> Some None
     /\ (gas_lt (Some l) n = true <-> gas_sub (Some l) n = None))
  /\ gas_add None n = Some None /\ gas_sub None n = Some None /\ gas_lt None n = false.
Proof.
  intros n. split; [|repeat split].
  intros l Hl Hn. unfold gas_add, gas_sub, gas_lt. change u64_max with 18446744073709551615.
  split; [|split; [|split; [|split; [|split]]]].
  - destruct (N.leb_spec (l + n) 18446744073709551615), (N.ltb_spec (l + n) 18446744073709551616); auto; lia.
  - intros g. destruct (l + n <=? 18446744073709551615); [|discriminate]. intros [= <-].
    replace (n <=? l + n) with true by lia. do 2 f_equal. lia.
  - destruct (N.leb_spec n l); split; intros; try discriminate; auto; lia.
  - intros r. destruct (N.leb_spec n l); split; try discriminate; [intros [= <-]; lia|intros <-; do 2 f_equal; lia|intros; lia].
  - destruct (n <=? l); discriminate.
  - destruct (N.ltb_spec l n), (N.leb_spec n l); split; auto; try discriminate; lia.
Qed.
Print Assumptions C105_gas_amounts.
Example C105_gas_amounts_satisfiable :
  gas_add (Some 10) 20 = Some (Some 30) /\ gas_sub (Some 15) 20 = None /\ gas_sub (Some 30) 20 = Some (Some 10)
  /\ gas_add (Some 18446744073709551615) 1 = None.
Proof. repeat split. Qed.
