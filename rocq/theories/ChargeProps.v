(** Property C119: the limit of a spawn covers every execution of the constructor. *)
From Coq Require Import String List NArith Bool Lia ZifyBool ZifyNat ZifyN.
From Verif Require Import Base Text CodecModel CodecSpec CodecProofs ReceiptModel ReceiptSpec ReceiptProofs LayoutModel SectionModel SectionSpec StorageModel StorageSpec.
From Verif Require Import GlobalModel GlobalSpec GlobalProofs RuntimeModel RuntimeSpec RuntimeProofs RuntimeProps FfiModel MeterSpec ObserveSpec CacheProofs ObserveProps.
From Verif Require Import GraphModel GraphSpec ProgramModel ProgramSpec ProgramProofs ProgramProps PricingModel PricingSpec PricingProps AcceptSpec AcceptProofs AcceptProps.
From Verif Require OutcomeSpec OutcomeProofs OutcomeProps.
From Verif Require Import ChargeModel ChargeSpec.
Import ListNotations.
Open Scope string_scope.
Open Scope list_scope.
Open Scope N_scope.

(** ** Registries *)
Lemma registry_add_get v r l w : registry_get w (registry_add v r l) = if v =? w then Some r else registry_get w l.
Proof.
  unfold registry_get. induction l as [|[u s] l IH]; cbn [registry_add assoc]; [reflexivity|].
  destruct (N.eqb_spec u v) as [->|Ne]; cbn [assoc].
  - destruct (v =? w); reflexivity.
  - rewrite IH. destruct (N.eqb_spec u w) as [->|Nw]; [|reflexivity]. destruct (N.eqb_spec v w); [congruence|reflexivity].
Qed.
(** A registry gives for each version the price list added last, and none otherwise. *)
Theorem C119_registry : forall adds version r,
  registry_get version (fold_left (fun l a => registry_add (fst a) (snd a) l) adds registry_empty) = Some r <->
  last_added version adds r.
Proof.
  intros adds version r. induction adds as [|[v s] adds IH] using rev_ind.
  - cbn. split; [discriminate|]. intros (b & a & E & _). destruct b; discriminate E.
  - rewrite fold_left_app. cbn [fold_left fst snd]. rewrite registry_add_get. destruct (N.eqb_spec v version) as [->|Ne].
    + split.
      * intros [= ->]. exists adds, []. split; [reflexivity|intros []].
      * intros (b & a & E & N). destruct a as [|x a] using rev_ind.
        -- apply app_inj_tail in E as [_ E]. congruence.
        -- clear IHa. rewrite app_comm_cons, app_assoc in E. apply app_inj_tail in E as [_ <-]. exfalso. apply N. rewrite map_app, in_app_iff. right. now left.
    + rewrite IH. split.
      * intros (b & a & -> & N). exists b, (a ++ [(v, s)]). split; [now rewrite <- app_assoc|]. rewrite map_app, in_app_iff. intros [H|[H|[]]]; auto.
      * intros (b & a & E & N). destruct a as [|x a] using rev_ind.
        -- apply app_inj_tail in E as [_ E]. congruence.
        -- clear IHa. rewrite app_comm_cons, app_assoc in E. apply app_inj_tail in E as [-> _]. exists b, a. split; [reflexivity|].
           intros H. apply N. rewrite map_app, in_app_iff. now left.
Qed.
Print Assumptions C119_registry.

(** ** Prices of templates *)
Lemma exports_get_in name l i : exports_get name l = Some i -> In (name, i) l.
Proof.
  induction l as [|[n j] l IH]; cbn [exports_get]; [discriminate|]. destruct (bytes_eqb n name) eqn:E.
  - apply bytes_eqb_spec in E. subst. intros [= ->]. now left.
  - intros H. right. auto.
Qed.
Lemma in_exports_get name l i : NoDup (map fst l) -> In (name, i) l -> exports_get name l = Some i.
Proof.
  induction l as [|[n j] l IH]; intros ND H; [destruct H|]. cbn [map fst] in ND. inversion ND as [|? ? N1 N2]; subst. cbn [exports_get].
  destruct H as [H|H].
  - injection H as <- <-. now rewrite (proj2 (bytes_eqb_spec _ _) eq_refl).
  - destruct (bytes_eqb n name) eqn:E; [|auto]. apply bytes_eqb_spec in E. subst. exfalso. apply N1. apply in_map_iff. exists (name, i). auto.
Qed.

Lemma code_section l cs : code_of l = Some cs <-> get_section KCode l = Some (SCode cs).
Proof. unfold code_of. destruct (get_section KCode l) as [s|]; [destruct s|]; split; congruence. Qed.

Lemma exports_distinct m p : program_new m false = Ok p -> NoDup (map fst (p_exports p)).
Proof. intros H. apply new_iff in H as (md & code & _ & _ & ->). apply program_reads. Qed.
Lemma valid_program parse code p : valid_code parse code -> program_new (parse code) false = Ok p -> validate_wasm p false = Ok tt.
Proof.
  intros (md' & Pm' & code' & A' & Rl) P. apply new_iff in P as (md & c & Pm & A & ->). rewrite Pm in Pm'. apply Some_inj in Pm'. subst md'.
  assert (code' = c) as -> by (destruct A, A'; congruence). apply validated_ok. now apply read_acceptable.
Qed.

(** The price is that of the program, by the price list of version 0. *)
Lemma price_says parse en w g t name price : w_engine w = node_engine parse registry_default en ->
  template_price w g t name price <->
  fixed_price (w_env w) g t /\ exists p f fp, function_of (w_env w) parse g t name p f /\ price_program p v0_resolver = Some fp /\ assoc f fp = Some price.
Proof.
  intros En. unfold template_price. rewrite En. cbn [node_engine en_exports en_prices]. unfold node_exports, node_prices. split.
  - intros (l & cs & exports & prices & index & El & Ec & Em & Ee & Ei & Ep & Epi). apply code_section in Ec. split.
    { intros l' cs' El' Ec'. rewrite El in El'. injection El' as <-. rewrite Ec in Ec'. injection Ec' as <-. exact Em. }
    destruct (program_new (parse (cs_code cs)) false) as [p|?|] eqn:P; try discriminate. apply Some_inj in Ee. subst exports.
    cbn [registry_default registry_add registry_empty registry_get assoc N.eqb obind] in Ep.
    destruct (price_program p v0_resolver) as [fp|] eqn:Pr; cbn [obind] in Ep; [|discriminate]. apply Some_inj in Ep. subst prices.
    exists p, index, fp. split; [|auto]. exists l, cs. auto using exports_get_in.
  - intros (Fx & p & f & fp & (l & cs & El & Ec & P & I) & Pr & As). exists l, cs. rewrite P.
    exists (fun n => exports_get n (p_exports p)), (fun i => assoc i fp), f. pose proof (Fx l cs El Ec). apply code_section in Ec.
    split; [exact El|]. split; [exact Ec|]. split; [auto|]. split; [reflexivity|]. split; [apply in_exports_get; eauto using exports_distinct|].
    cbn [registry_default registry_add registry_empty registry_get assoc N.eqb obind]. rewrite Pr. cbn [obind]. auto.
Qed.

Lemma function_unique e parse g t name p f p' f' : function_of e parse g t name p f -> function_of e parse g t name p' f' -> p' = p /\ f' = f.
Proof.
  intros (l & cs & El & Ec & P & I) (l' & cs' & El' & Ec' & P' & I'). rewrite El in El'. injection El' as <-. rewrite Ec in Ec'. injection Ec' as <-.
  assert (p' = p) as -> by congruence. split; [reflexivity|]. pose proof (exports_distinct _ _ P) as ND.
  pose proof (in_exports_get _ _ _ ND I). pose proof (in_exports_get _ _ _ ND I'). congruence.
Qed.

Lemma known_valid e en parse known ops g c t name p f :
  iterates e -> collision_free e -> hash_wf e -> engine_wf en -> addresses_differ e known ->
  (forall code, known code -> valid_code parse code) ->
  history e en known ops g c -> array_wf 20 t -> function_of e parse g t name p f -> validate_wasm p false = Ok tt.
Proof.
  intros HI HC HH HE HD K HS Ht (l & cs & El & Gc & P & _). destruct (history_invariant e en known HI HC HH HE HD ops g c HS) as (_ & HL & HA & _).
  pose proof (sections_addressed e known t g l Ht (proj2 HL) HA El) as CS. apply code_section in Gc.
  eapply valid_program; [|exact P]. apply K. exact (proj1 (CS cs (code_of_in _ _ Gc))).
Qed.

Lemma node_engine_wf parse reg en : engine_wf en -> engine_wf (node_engine parse reg en).
Proof. intros [A B]. split; [exact A|exact B]. Qed.

(** The cases of a spawn. *)
Lemma spawn_cases e en parse known ops g c ev m sp rc c' g' :
  iterates e -> collision_free e -> hash_wf e -> engine_wf en -> addresses_differ e known ->
  history e (node_engine parse registry_default en) known ops g c -> bytes_ok m -> decoded dec_spawn m = Some sp ->
  spawn e (node_engine parse registry_default en) ev m c g = (Some rc, c', g') ->
  sr_error rc = Some (FuncNotCtor (sp_template sp) (sp_ctor sp)) \/
  (sr_error rc = Some OOG /\ ~ OutcomeSpec.affords (env_gas_limit ev) (1000 * nlen m)) \/
  exists p f fp price, function_of e parse g (sp_template sp) (sp_ctor sp) p f /\ price_program p v0_resolver = Some fp /\ assoc f fp = Some price /\
    ((sr_error rc = Some OOG /\ ~ OutcomeSpec.affords (env_gas_limit ev) (1000 * nlen m + price)) \/
     (sr_error rc <> Some OOG /\ OutcomeSpec.affords (env_gas_limit ev) (1000 * nlen m + price))).
Proof.
  intros HI HC HH HE HD HS Hm Ed E. pose proof (node_engine_wf parse registry_default en HE) as HE'.
  set (w := mkWorld e (node_engine parse registry_default en) parse [] []).
  assert (X : exists c', spawn (w_env w) (w_engine w) ev m c g = (Some rc, c', g')) by (exists c'; exact E).
  apply (OutcomeProps.C117_spawn w known ops g c ev m rc g' HI HC HH HE' HD HS Hm) in X as (sp' & Ed' & S).
  assert (sp' = sp) as -> by congruence.
  assert (TPs : forall price, template_price w g (sp_template sp) (sp_ctor sp) price -> exists p f fp,
    function_of e parse g (sp_template sp) (sp_ctor sp) p f /\ price_program p v0_resolver = Some fp /\ assoc f fp = Some price).
  { intros price TP. apply (price_says parse en w g _ _ price eq_refl) in TP as (_ & H). exact H. }
  inversion S as [ctors code D Ni|ctors code D Hi Na|ctors code price D Hi TP Na|ctors code price a g1 err logs g'' D Hi TP Af P F|ctors code price a g1 data logs touched g2 state g'' D Hi TP Af P F Co]; subst; cbn [sr_error].
  - left. reflexivity.
  - right. left. auto.
  - right. right. destruct (TPs price TP) as (p & f & fp & A & B & C). exists p, f, fp, price. auto 6.
  - right. right. destruct (TPs price TP) as (p & f & fp & A & B & C). exists p, f, fp, price. repeat (split; [assumption|]). right.
    split; [|exact Af]. inversion F; discriminate.
  - right. right. destruct (TPs price TP) as (p & f & fp & A & B & C). exists p, f, fp, price. repeat (split; [assumption|]). right. split; [discriminate|exact Af].
Qed.

Lemma cost_is p is : cost p is = total_charge (charge p v0_resolver) is.
Proof. symmetry. apply C111_executions_cost. Qed.

(** ** C119 *)

(** If all the code that a node was ever given passed the validation of deployments, then a spawn
    that got as far as the constructor has a limit that exceeds the price of its message together
    with that of every execution of the constructor, whatever the execution does. *)
Theorem C119_limit_covers :
  forall e en parse known ops g c ev m sp rc c' g',
  iterates e -> collision_free e -> hash_wf e -> engine_wf en -> addresses_differ e known ->
  (forall code, known code -> valid_code parse code) ->
  history e (node_engine parse registry_default en) known ops g c -> bytes_ok m -> decoded dec_spawn m = Some sp ->
  spawn e (node_engine parse registry_default en) ev m c g = (Some rc, c', g') ->
  sr_error rc <> Some OOG -> sr_error rc <> Some (FuncNotCtor (sp_template sp) (sp_ctor sp)) ->
  exists p f, function_of e parse g (sp_template sp) (sp_ctor sp) p f /\
    forall st is st', enters p f st -> run p st is st' -> OutcomeSpec.affords (env_gas_limit ev) (1000 * nlen m + cost p is).
Proof.
  intros e en parse known ops g c ev m sp rc c' g' HI HC HH HE HD K HS Hm Ed E N1 N2.
  destruct (spawn_cases e en parse known ops g c ev m sp rc c' g' HI HC HH HE HD HS Hm Ed E) as [X|[[X _]|(p & f & fp & price & Fo & Pr & As & [[X _]|[_ Af]])]]; try congruence.
  assert (Hsp : spawn_wf sp) by (eapply decoded_canon; eauto using spawn_canon). destruct Hsp as [S1 S2 S3 S4 S5].
  exists p, f. split; [exact Fo|]. intros st is st' En R.
  pose proof (known_valid e _ parse known ops g c _ _ p f HI HC HH (node_engine_wf parse registry_default en HE) HD K HS S2 Fo) as Vd.
  destruct (C111_price_pays p false fp f st is st' Vd Pr En R) as (v & Av & Le). rewrite As in Av. injection Av as <-.
  unfold OutcomeSpec.affords in *. fold (cost p is) in Le. lia.
Qed.
Print Assumptions C119_limit_covers.

(** It is refused for its limit exactly when the limit does not exceed the price of the message, or
    not that of the message and of some path through the constructor. *)
Theorem C119_refused_exactly :
  forall e en parse known ops g c ev m sp rc c' g' p f body,
  iterates e -> collision_free e -> hash_wf e -> engine_wf en -> addresses_differ e known ->
  (forall code, known code -> valid_code parse code) ->
  history e (node_engine parse registry_default en) known ops g c -> bytes_ok m -> decoded dec_spawn m = Some sp ->
  spawn e (node_engine parse registry_default en) ev m c g = (Some rc, c', g') ->
  sr_error rc <> Some (FuncNotCtor (sp_template sp) (sp_ctor sp)) ->
  function_of e parse g (sp_template sp) (sp_ctor sp) p f -> get_func p f = Some body ->
  (forall h b, get_func p h = Some b -> well_nested [InBlock] b) ->
  (sr_error rc = Some OOG <->
   ~ OutcomeSpec.affords (env_gas_limit ev) (1000 * nlen m) \/
   exists is, path p [mkFrame f [] body] is [] /\ ~ OutcomeSpec.affords (env_gas_limit ev) (1000 * nlen m + cost p is)).
Proof.
  intros e en parse known ops g c ev m sp rc c' g' p f body HI HC HH HE HD K HS Hm Ed E N1 Fo G Wn.
  assert (Hsp : spawn_wf sp) by (eapply decoded_canon; eauto using spawn_canon). destruct Hsp as [S1 S2 S3 S4 S5].
  pose proof (known_valid e _ parse known ops g c _ _ p f HI HC HH (node_engine_wf parse registry_default en HE) HD K HS S2 Fo) as Vd.
  destruct (spawn_cases e en parse known ops g c ev m sp rc c' g' HI HC HH HE HD HS Hm Ed E) as [X|[[X A]|(p' & f' & fp & price & Fo' & Pr & As & X)]]; try congruence; [split; auto|].
  destruct (function_unique _ _ _ _ _ _ _ _ _ Fo Fo') as [-> ->].
  destruct (C74_dearest_path p false v0_resolver fp f body Vd Pr Wn G) as (v & Av & (is & Pi & Ti) & Up). rewrite As in Av. injection Av as <-.
  split.
  - intros O. destruct X as [[_ Na]|[N _]]; [|congruence]. right. exists is. split; [exact Pi|]. now rewrite cost_is, Ti.
  - intros H. destruct X as [[O _]|[_ Af]]; [exact O|]. exfalso. destruct H as [H|(is' & Pi' & H)].
    + apply H. unfold OutcomeSpec.affords in *. lia.
    + apply H. specialize (Up is' [] Pi'). rewrite cost_is. unfold OutcomeSpec.affords in *. lia.
Qed.
Print Assumptions C119_refused_exactly.

(** The price that the node compares with the limit is that of the dearest path, and it exists if the
    code is tidy and its costs stay within bounds that fit in 64 bits. *)
Theorem C119_price_known :
  forall e en parse g t name p f body B,
  fixed_price e g t -> function_of e parse g t name p f -> get_func p f = Some body -> validate_wasm p false = Ok tt ->
  (forall h k, calls p h k -> defined p k) ->
  (forall h b, get_func p h = Some b -> well_nested [InBlock] b /\ tidy (live p h b) [InBlock] b) ->
  affordable p v0_resolver B ->
  exists price is, template_price (mkWorld e (node_engine parse registry_default en) parse [] []) g t name price /\
    path p [mkFrame f [] body] is [] /\ cost p is = price /\
    (forall is' st', path p [mkFrame f [] body] is' st' -> cost p is' <= price).
Proof.
  intros e en parse g t name p f body B Fx Fo G Vd Df Wn Aff. pose proof Fo as (l & cs & _ & _ & P & _).
  destruct (C36_priced_partial _ _ p false v0_resolver B P Vd Df Wn Aff) as (fp & Pr & _ & _).
  destruct (C74_dearest_path p false v0_resolver fp f body Vd Pr (fun h b H => proj1 (Wn h b H)) G) as (v & Av & (is & Pi & Ti) & Up).
  exists v, is. split; [|split; [exact Pi|split; [now rewrite cost_is|intros is' st' H; rewrite cost_is; eauto]]].
  apply (price_says parse en (mkWorld e (node_engine parse registry_default en) parse [] []) g t name v eq_refl). split; [exact Fx|]. exists p, f, fp. auto.
Qed.
Print Assumptions C119_price_known.

(** The template of the runtime's examples, whose code is that of the programs' examples. *)
Definition ch_module : wmodule := with_exports
  [(txt "svm_alloc", IntFunction 1); (txt "svm_verify", IntFunction 2); (txt "init", IntFunction 1)].
Definition ch_program : program := mkProgram (p_imports ex_program) (p_exports ex_program ++ [(txt "init", 1)]) (p_functions ex_program).
Definition ch_parse (code : bytes) : option wmodule := if bytes_eqb code (rx_code 1) then Some ch_module else None.
Definition ch_engine : engine := node_engine ch_parse registry_default rx_engine.
Definition ch_known (code : bytes) : Prop := code = rx_code 1.
Definition ch_ops : list rop := [TDeploy (rx_envelope None) (rx_deploy 1)].
Definition ch_run : gstate * price_cache := run_rop rx_env ch_engine (TDeploy (rx_envelope None) (rx_deploy 1)) (rx_start, []).
Definition ch_spawn (limit : N) : option spawn_receipt * price_cache * gstate :=
  spawn rx_env ch_engine (rx_envelope (Some limit)) (rx_spawn 1 (txt "init")) [] (fst ch_run).

Lemma ch_history : history rx_env ch_engine ch_known ch_ops (fst ch_run) (snd ch_run).
Proof.
  exists [], rx_start. split; [constructor|]. split; [vm_compute; reflexivity|]. split; [|split].
  - constructor; [|constructor]. cbn [rop_wf]. apply bytes_okb_ok. vm_compute. reflexivity.
  - constructor; [|constructor]. intros l H. vm_compute in H. injection H as <-. intros c [H|[H|[H|[]]]]; [|discriminate H..]. injection H as <-. vm_compute. reflexivity.
  - unfold ch_ops, ch_run. cbn [fold_left]. now destruct (run_rop _ _ _ _).
Qed.
Lemma ch_valid : forall code, ch_known code -> valid_code ch_parse code.
Proof.
  intros code ->. exists ch_module. split; [vm_compute; reflexivity|].
  assert (B : program_new (Some ch_module) true = Ok ch_program /\ validate_wasm ch_program false = Ok tt) by (split; vm_compute; reflexivity).
  destruct B as [B1 B2]. apply new_iff in B1 as (md & code & E & A & Ep). apply Some_inj in E. subst md. rewrite Ep in B2.
  apply validated_ok, read_acceptable in B2. exists code. auto.
Qed.
Lemma ch_sections : fst (template_sections rx_env (rx_taddr 1) (fst ch_run)) = Ok (rx_sections 1).
Proof. vm_compute. reflexivity. Qed.
Lemma ch_function : function_of rx_env ch_parse (fst ch_run) (rx_taddr 1) (txt "init") ch_program 1.
Proof.
  exists (rx_sections 1), (mkCode 0 (rx_code 1) 0 Fixed). split; [apply ch_sections|]. split; [vm_compute; reflexivity|].
  split; [vm_compute; reflexivity|]. right. right. left. reflexivity.
Qed.
(** The message costs 34000, and the dearest path 3003: a limit of 37004 is enough, and one of 37003
    is not. *)
Example C119_satisfiable :
  addresses_differ rx_env ch_known /\ history rx_env ch_engine ch_known ch_ops (fst ch_run) (snd ch_run) /\
  (forall code, ch_known code -> valid_code ch_parse code) /\
  decoded dec_spawn (rx_spawn 1 (txt "init")) = Some (mkSpawn 0 (rx_taddr 1) (txt "acc") (txt "init") [1; 2]) /\
  function_of rx_env ch_parse (fst ch_run) (rx_taddr 1) (txt "init") ch_program 1 /\
  (forall h b, get_func ch_program h = Some b -> well_nested [InBlock] b) /\
  option_map sr_error (fst (fst (ch_spawn 37004))) = Some None /\
  option_map sr_error (fst (fst (ch_spawn 37003))) = Some (Some OOG) /\
  template_price (mkWorld rx_env ch_engine ch_parse [] []) (fst ch_run) (rx_taddr 1) (txt "init") 3003.
Proof.
  split; [intros c1 c2 -> -> _; reflexivity|]. split; [apply ch_history|]. split; [apply ch_valid|]. split; [vm_compute; reflexivity|].
  split; [apply ch_function|]. split.
  { intros h b G. unfold get_func, ch_program, ex_program in G. cbn [p_functions assoc] in G.
    destruct (1 =? h); [apply Some_inj in G; subst b; cbn; repeat split; try discriminate; eauto|].
    destruct (2 =? h); [apply Some_inj in G; subst b; cbn; repeat split; try discriminate; eauto|discriminate G]. }
  split; [vm_compute; reflexivity|]. split; [vm_compute; reflexivity|].
  apply (price_says ch_parse rx_engine (mkWorld rx_env ch_engine ch_parse [] []) (fst ch_run) (rx_taddr 1) (txt "init") 3003 eq_refl). split.
  - intros l cs El Ec. cbn [w_env] in El. rewrite ch_sections in El. injection El as <-. vm_compute in Ec. injection Ec as <-. reflexivity.
  - destruct (price_program ch_program v0_resolver) as [fp|] eqn:Pr; [|vm_compute in Pr; discriminate]. exists ch_program, 1, fp.
    split; [apply ch_function|]. split; [exact Pr|]. vm_compute in Pr. injection Pr as <-. reflexivity.
Qed.
