(** C100: the functions a contract imports. *)
From Coq Require Import String List NArith ZArith Bool Lia.
From Verif Require Import Base Text CodecModel StorageModel StorageSpec ReceiptModel SectionModel ProgramModel GlobalModel GlobalSpec GlobalProofs RuntimeModel RuntimeSpec RuntimeProofs RuntimeProps.
From Verif Require Import EndpointSpec MacroModel MacroSpec MacroProofs MacroProps LinkModel LinkSpec LinkProofs.
Import ListNotations.
Open Scope string_scope.
Open Scope list_scope.
Open Scope N_scope.

(** ** C100 Which contracts find the functions they import *)

(** The module compiled from an accepted contract links with the runtime exactly when no entry
    takes funds and the bodies use only allocation, arguments, results and storage. *)
Theorem C100_links :
  forall order t g meta body m,
  macro_expand order t = Some (g, meta) -> compiled_with m (contract_calls body t g) ->
  (links m = true <->
   (forall f, In f (tp_functions t) -> ~ takes_funds f) /\
   (forall f c, In f (tp_functions t) -> In c (body (fn_name f)) -> works c)).
Proof. intros order t g me body m E C. rewrite (links_calls m _ C). now apply contract_works with order me. Qed.
Print Assumptions C100_links.
(** A module that wants a table, a memory or a global from its surroundings, or a function that
    is not one of the twelve of the namespace [svm] with their types, does not link; one that
    wants only those does. *)
Theorem C100_other_imports :
  forall m, links m = true <->
  forall module name e, In (module, name, e) (entries (m_imports m)) ->
  exists ty params results f, e = ExtFunction ty /\ nth_error (entries (m_types m)) (N.to_nat ty) = Some (params, results) /\
    module = txt "svm" /\ name = txt f /\ provides f params results.
Proof.
  intros m. split.
  - intros L module name e H. unfold links in L. rewrite forallb_forall in L. specialize (L _ H).
    destruct e as [ty| | |]; try discriminate L. destruct (nth_error _ _) as [[ps rs]|] eqn:Et; [|discriminate L].
    destruct (resolves_registered _ _ _ L) as [-> R]. destruct (registered_provided _ _ _ R) as (f & -> & P).
    exists ty, ps, rs, f. auto.
  - intros H. unfold links. apply forallb_forall. intros [[module name] e] I. destruct (H module name e I) as (ty & ps & rs & f & -> & Et & -> & -> & P).
    rewrite Et. now apply provided_resolves.
Qed.
Print Assumptions C100_other_imports.
(** A contract that does not link never runs: no call, no verification and no spawn of it is
    successful. *)
Theorem C100_call_fails :
  forall e en parse g target code m,
  linking en parse -> has_code e g target code -> parse code = Some m -> links m = false ->
  forall name input template within mode r g',
  exec_call e en (mkCall name input target template within mode) g = (Some r, g') -> cr_success r = false.
Proof.
  intros e en parse g target code m HL Hc Hp Hm name input template within mode r g' Ex.
  destruct (HL code m Hp Hm) as [msg Ei]. exact (unlinked_call e en (mkCall name input target template within mode) g code msg Hc Ei r g' Ex).
Qed.
Print Assumptions C100_call_fails.
Theorem C100_spawn_fails :
  forall e en parse g c ev message sp sections cs m,
  iterates e -> collision_free e -> hash_wf e -> engine_wf en -> rt_reachable e en g c -> bytes_ok message ->
  linking en parse -> decoded dec_spawn message = Some sp ->
  fst (template_sections e (sp_template sp) g) = Ok sections -> code_of sections = Some cs ->
  parse (cs_code cs) = Some m -> links m = false ->
  forall r c' g', spawn e en ev message c g = (Some r, c', g') -> sr_success r = false.
Proof.
  intros e en parse g c ev message sp l cs m HI HC HH HE HR Hok HL Ed El Ec Hp Hm r c' g' E. destruct (HL _ m Hp Hm) as [msg Ei].
  exact (unlinked_spawn e en ev message c g sp l cs msg HI HC HH (rt_live e en g c HI HC HH HE HR) Hok Ed El Ec Ei r c' g' E).
Qed.
Print Assumptions C100_spawn_fails.
(** Validating a template does not look at the names of its imports, so it tells nothing about
    whether the template can run. *)
Theorem C100_validation_ignores_imports :
  forall r parse message,
  validate_deploy (fun code => option_map (renamed r) (parse code)) message = validate_deploy parse message.
Proof. exact validate_renamed. Qed.
Print Assumptions C100_validation_ignores_imports.

(** The functions of the SDK that deal with coins, accounts, layers and logs do not exist in the
    runtime. *)
Theorem C100_sdk_functions_refuted :
  ~ (forall m c, compiled_with m [c] -> links m = true).
Proof.
  intros H. pose (m := mkModule (Some [([], [I64])]) (Some [(txt "sm", txt "sm_value", ExtFunction 0)]) None None None).
  assert (C : compiled_with m [CValue]).
  { constructor.
    - intros mo na e [X|[]]. injection X as <- <- <-. eauto.
    - intros mo na t. unfold m, imports_in. cbn [flat_map m_imports m_types entries app]. change (nth_error [([], [I64])] (N.to_nat 0)) with (Some (@nil value_type, [I64])). split.
      + intros [X|[]]. injection X as <- <- <-. exists CValue, ([], [I64]). split; [now left|]. split; [now left|reflexivity].
      + intros (c & t' & [<-|[]] & [X|[]] & ->). injection X as <- <- <-. now left. }
  specialize (H m CValue C). vm_compute in H. discriminate H.
Qed.
Print Assumptions C100_sdk_functions_refuted.
(** Accepted contracts with an entry that takes funds cannot run, whatever else they do. *)
Theorem C100_accepted_contracts_refuted :
  ~ (forall order t g meta m, macro_expand order t = Some (g, meta) ->
     compiled_with m (contract_calls (fun _ => []) t g) -> links m = true).
Proof.
  intros H.
  pose (t := mkTemplate [nfn "pay" [mkRaw (txt "fundable") NoArgs; mkRaw (txt "endpoint") NoArgs] [] None] []).
  pose (m := mkModule (Some [([I32], [I32]); ([], [I64])])
    (Some [(txt "svm", txt "svm_static_alloc", ExtFunction 0); (txt "sm", txt "sm_value", ExtFunction 1)]) None None None).
  destruct (macro_expand (fun l => l) t) as [[g me]|] eqn:E; [|vm_compute in E; discriminate E].
  assert (C : contract_calls (fun _ => []) t g = [CAlloc; CValue]) by (vm_compute in E; injection E as <- _; reflexivity).
  specialize (H (fun l => l) t g me m E). rewrite C in H. cut (links m = true); [vm_compute; discriminate|]. apply H. constructor.
  - intros mo na e [X|[X|[]]]; injection X as <- <- <-; eauto.
  - intros mo na x. unfold m, imports_in. cbn [flat_map m_imports m_types entries app].
    change (nth_error [([I32], [I32]); ([], [I64])] (N.to_nat 0)) with (Some ([I32], [I32])).
    change (nth_error [([I32], [I32]); ([], [I64])] (N.to_nat 1)) with (Some (@nil value_type, [I64])). split.
    + intros [X|[X|[]]]; injection X as <- <- <-; [exists CAlloc, ([I32], [I32])|exists CValue, ([], [I64])]; (split; [cbn; auto|split; [now left|reflexivity]]).
    + intros (c & t' & [<-|[<-|[]]] & [X|[]] & ->); injection X as <- <- <-; [now left|right; now left].
Qed.
Print Assumptions C100_accepted_contracts_refuted.

(** A contract with one endpoint that reads a variable links; a deployed contract that does not
    link exists, and calling and spawning it answers receipts. *)
Definition lx_module : wmodule :=
  mkModule (Some [([], [I64])]) (Some [(txt "sm", txt "sm_value", ExtFunction 0)]) None None None.
Definition lx_engine : engine :=
  mkEngine (en_inst rx_engine) (fun _ => None) (fun _ => WTrap []) (en_has_memory rx_engine) (en_func rx_engine)
    (en_call rx_engine) (en_exports rx_engine) (en_prices rx_engine).
Definition lx_ops : list rop :=
  [TDeploy (rx_envelope None) (rx_deploy 1); TCreate rx_a (txt "ann") (rx_taddr 1) 50 0].
Definition lx_end : gstate * price_cache := fold_left (fun s o => run_rop rx_env lx_engine o s) lx_ops (rx_start, []).
Definition lx_template : template := mkTemplate [nfn "get" [mkRaw (txt "endpoint") NoArgs] [] None] [].
Definition lx_linked : wmodule :=
  mkModule (Some [([I32], [I32])])
    (Some [(txt "svm", txt "svm_static_alloc", ExtFunction 0); (txt "svm", txt "svm_get32", ExtFunction 0)]) None None None.
Lemma lx_reachable : rt_reachable rx_env lx_engine (fst lx_end) (snd lx_end).
Proof.
  unfold lx_end, lx_ops. cbn [fold_left].
  destruct (run_rop rx_env lx_engine (TDeploy (rx_envelope None) (rx_deploy 1)) (rx_start, [])) as [g1 c1] eqn:E1.
  destruct (run_rop rx_env lx_engine (TCreate rx_a (txt "ann") (rx_taddr 1) 50 0) (g1, c1)) as [g2 c2] eqn:E2. cbn [fst snd].
  eapply rr_op; [eapply rr_op; [| |exact E1]| |exact E2]; cbn [rop_wf].
  - apply (rr_new _ _ []); [constructor|]. vm_compute. reflexivity.
  - apply bytes_okb_ok. vm_compute. reflexivity.
  - split; [apply rx_a_wf|]. split; [split; [split; [discriminate|apply bytes_okb_ok; reflexivity]|reflexivity]|].
    split; [split; [reflexivity|apply bytes_okb_ok; reflexivity]|]. split; reflexivity.
Qed.
Example C100_satisfiable :
  (exists g meta body, macro_expand (fun l => l) lx_template = Some (g, meta) /\ compiled_with lx_linked (contract_calls body lx_template g)
     /\ body (txt "get") = [CGet32] /\ links lx_linked = true)
  /\ linking lx_engine (fun _ => Some lx_module) /\ links lx_module = false /\ engine_wf lx_engine
  /\ rt_reachable rx_env lx_engine (fst lx_end) (snd lx_end) /\ has_code rx_env (fst lx_end) rx_a (rx_code 1)
  /\ (exists r g', exec_call rx_env lx_engine (mkCall (txt "f") [] rx_a (rx_taddr 1) false FullAccess) (fst lx_end) = (Some r, g'))
  /\ (exists sp l cs, decoded dec_spawn (rx_spawn 1 (txt "init")) = Some sp
        /\ fst (template_sections rx_env (sp_template sp) (fst lx_end)) = Ok l /\ code_of l = Some cs)
  /\ (exists r c' g', spawn rx_env lx_engine (rx_envelope None) (rx_spawn 1 (txt "init")) (snd lx_end) (fst lx_end) = (Some r, c', g')).
Proof.
  split.
  { destruct (macro_expand (fun l => l) lx_template) as [[g me]|] eqn:E; [|vm_compute in E; discriminate E].
    exists g, me, (fun _ => [CGet32]). split; [reflexivity|]. split; [|split; [reflexivity|vm_compute; reflexivity]].
    assert (C : contract_calls (fun _ => [CGet32]) lx_template g = [CAlloc; CGet32]) by (vm_compute in E; injection E as <- _; reflexivity). rewrite C.
    constructor.
    - intros mo na e [X|[X|[]]]; injection X as <- <- <-; eauto.
    - intros mo na x. unfold lx_linked, imports_in. cbn [flat_map m_imports m_types entries app].
      change (nth_error [([I32], [I32])] (N.to_nat 0)) with (Some ([I32], [I32])). split.
      + intros [X|[X|[]]]; injection X as <- <- <-; [exists CAlloc, ([I32], [I32])|exists CGet32, ([I32], [I32])]; (split; [cbn; auto|split; [now left|reflexivity]]).
      + intros (c & t' & [<-|[<-|[]]] & [X|[]] & ->); injection X as <- <- <-; [now left|right; now left]. }
  split; [intros code m _ _; exists []; reflexivity|]. split; [vm_compute; reflexivity|].
  split. { destruct rx_engine_wf as [_ W]. split; [intros code; constructor|exact W]. }
  split; [exact lx_reachable|].
  split. { exists (rx_taddr 1). eexists. eexists. split; [vm_compute; reflexivity|]. split; [vm_compute; reflexivity|]. split; vm_compute; reflexivity. }
  split; [vm_compute; eauto|]. split; [|vm_compute; eauto].
  eexists. exists (rx_sections 1). eexists. split; [vm_compute; reflexivity|]. split; vm_compute; reflexivity.
Qed.
