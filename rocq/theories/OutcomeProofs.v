(** Proofs for OutcomeProps. *)
From Coq Require Import String List NArith ZArith Bool Lia ZifyBool ZifyNat ZifyN.
From Verif Require Import Base Text CodecModel CodecSpec CodecProofs ReceiptModel ReceiptSpec ReceiptProofs.
From Verif Require Import SectionModel SectionSpec SectionProofs StorageModel StorageSpec StorageProofs.
From Verif Require Import GlobalModel GlobalSpec GlobalProofs RuntimeModel RuntimeSpec RuntimeProofs ObserveProofs FfiModel MeterSpec TemplateProofs OutcomeSpec.
Import ListNotations.
Open Scope list_scope.
Open Scope N_scope.

(* ------------------------------------------------------------------------- *)
(** * Running *)

Lemma runs_is {R} e (t : wasm R) : forall f g o g',
  runs e t f g o g' <->
  run_wasm e t f g = (match o with Returned mem r f' => Ok (mem, r, f') | Trapped msg f' => Err (msg, f') end, g').
Proof.
  induction t as [mem r|msg|mem c k IH]; intros f g o g'; cbn [run_wasm]; split; intros H.
  - inversion H; subst; reflexivity.
  - destruct o; injection H as <- <- <- <-||discriminate H. constructor.
  - inversion H; subst; reflexivity.
  - destruct o; [discriminate H|injection H as <- <- <-]. constructor.
  - inversion H as [| |? ? ? ? ? v mem' f' g1 ? ? E H']; subst. rewrite E. now apply IH.
  - destruct (host_call e f mem c g) as [[[[v mem'] f']|?|] g1] eqn:E; [|destruct o; discriminate H..].
    econstructor; [exact E|]. now apply IH.
Qed.
Lemma runs_ok {R} e (t : wasm R) f g mem r f' g' : run_wasm e t f g = (Ok (mem, r, f'), g') <-> runs e t f g (Returned mem r f') g'.
Proof. symmetry. exact (runs_is e t f g (Returned mem r f') g'). Qed.
Lemma runs_err {R} e (t : wasm R) f g msg f' g' : run_wasm e t f g = (Err (msg, f'), g') <-> runs e t f g (Trapped msg f') g'.
Proof. symmetry. exact (runs_is e t f g (Trapped msg f') g'). Qed.
Definition kept (f f' : func_env) : Prop := fe_account f' = fe_account f /\ fe_template f' = fe_template f /\ fe_mode f' = fe_mode f.
Lemma runs_keep {R} e (t : wasm R) f g o g' : runs e t f g o g' ->
  kept f (match o with Returned _ _ f' => f' | Trapped _ f' => f' end).
Proof.
  induction 1 as [| |mem c k f g v mem' f' g' o g'' E _ IH]; [repeat split..|].
  apply host_call_tracked in E. destruct E as [_ _ _ _ M A T _ _]. destruct IH as (A' & T' & M'). repeat split; congruence.
Qed.

(* ------------------------------------------------------------------------- *)
(** * One function *)

Section Call.
Context (e : env) (en : engine).

Lemma is_ctor_in l names func : get_section KCtors l = Some (SCtors names) ->
  exists b, is_ctor l func = Some b /\ (b = true <-> In func names).
Proof.
  intros E. unfold is_ctor, ctors_of. rewrite E. cbn [obind]. eexists. split; [reflexivity|]. rewrite existsb_exists. split.
  - intros (x & Hx & B). apply bytes_eqb_spec in B. now subst.
  - intros H. exists func. split; [exact H|]. now apply bytes_eqb_spec.
Qed.
Lemma usage_ok cl l names f g : get_section KCtors l = Some (SCtors names) ->
  (In (cl_func cl) names <-> cl_within_spawn cl = true) -> validate_func_usage cl l f g = (Ok tt, g).
Proof.
  intros EN U. destruct (is_ctor_in l names (cl_func cl) EN) as (b & Eb & Hb). unfold validate_func_usage, ensure_ctor. rewrite Eb.
  rewrite <- Hb in U. destruct (cl_within_spawn cl), b; try (exfalso; intuition congruence); reflexivity.
Qed.
Lemma usage_bad cl l names f g : get_section KCtors l = Some (SCtors names) ->
  ~ (In (cl_func cl) names <-> cl_within_spawn cl = true) ->
  (cl_within_spawn cl = true /\ ~ In (cl_func cl) names /\ validate_func_usage cl l f g = (Err (FuncNotCtor (cl_template cl) (cl_func cl), []), g))
  \/ (cl_within_spawn cl = false /\ In (cl_func cl) names
     /\ validate_func_usage cl l f g = (Err (FuncNotAllowed (ac_addr (fe_account f)) (fe_template f) (cl_func cl) msg_not_allowed, []), g)).
Proof.
  intros EN U. destruct (is_ctor_in l names (cl_func cl) EN) as (b & Eb & Hb). unfold validate_func_usage, ensure_ctor. rewrite Eb.
  rewrite <- Hb in U. rewrite <- Hb. destruct (cl_within_spawn cl), b; try (exfalso; apply U; intuition congruence); [left|right]; repeat split; congruence.
Qed.
Lemma usage_either cl (names : list bytes) : (In (cl_func cl) names <-> cl_within_spawn cl = true) \/ ~ (In (cl_func cl) names <-> cl_within_spawn cl = true).
Proof.
  destruct (in_dec (list_eq_dec N.eq_dec) (cl_func cl) names), (cl_within_spawn cl); intuition congruence.
Qed.
Lemma wasmer_is i f name args mem g :
  wasmer_call e en i f name args mem g =
  match run_wasm e (en_call en i name args mem) f g with
  | (Ok (mem', (rets, i'), f'), g') => (Ok (mem', rets, i', fe_logs f', with_logs [] f'), g')
  | (Err (msg, f'), g') => (Err (FuncFailed (ac_addr (fe_account f')) (fe_template f') name msg, fe_logs f'), g')
  | (Panic, g') => (Panic, g')
  end.
Proof. reflexivity. Qed.
Lemma func_unit i f name : func en i f name SigUnit = None <-> en_func en i name = Some SigUnit.
Proof. unfold func. destruct (en_func en i name) as [[]|]; split; congruence. Qed.
Lemma func_alloc i f : func en i f RuntimeModel.svm_alloc SigAlloc = None <-> has_alloc en i.
Proof. unfold func, has_alloc, RuntimeModel.svm_alloc. destruct (en_func en i (txt "svm_alloc")) as [[]|]; split; congruence. Qed.

Lemma has_code code l c : code = option_map cs_code (code_of l) -> code = Some c -> exists cs, code_of l = Some cs /\ cs_code cs = c.
Proof. destruct (code_of l) as [cs|]; cbn [option_map]; intros -> [= <-]. eauto. Qed.
(** What [run] does, in the words of the specification. *)
Lemma run_fails cl l names code a err logs g g' :
  get_section KCtors l = Some (SCtors names) ->
  code = match get_section KCode l with Some (SCode c) => Some (cs_code c) | _ => None end ->
  run e en cl l (env_new a (cl_template cl) (cl_mode cl)) g = (Err (err, logs), g') <->
  fails e en (cl_within_spawn cl) a (cl_template cl) names code (cl_func cl) (cl_input cl) (cl_mode cl) g err logs g'.
Proof.
  intros EN EC.
  set (f0 := env_new a (cl_template cl) (cl_mode cl)).
  assert (Ecode : code = option_map cs_code (code_of l)) by (rewrite EC; unfold code_of; destruct (get_section KCode l) as [[]|]; reflexivity).
  clear EC.
  unfold run. split.
  - intros H.
    destruct (usage_either cl names) as [U|U].
    2:{ destruct (usage_bad cl l names f0 g EN U) as [(W & N & E)|(W & N & E)]; unfold sbind at 1 in H; rewrite E in H; injection H as <- <- <-; now constructor. }
    unfold sbind at 1 in H. rewrite (usage_ok cl l names f0 g EN U) in H. rename H into H'.
    unfold instantiate in H'. destruct (code_of l) as [cs|]; [|discriminate H']. cbn [option_map] in Ecode. subst code. unfold sbind at 1 2 in H'. cbn [ssome sret] in H'. unfold sret at 1 in H'.
    destruct (en_compile en (cs_code cs)) as [msg|] eqn:Ecomp.
    { cbn [serr] in H'. injection H' as <- <- <-. eapply f_compile; eauto. }
    destruct (run_wasm e (en_instantiate en (cs_code cs)) f0 g) as [[[[mem i] f1]|[msg f1]|] g1] eqn:Ei; [| |discriminate H'].
    2:{ injection H' as <- <- <-. apply runs_err in Ei. eapply f_instantiate; eauto. }
    apply runs_ok in Ei. pose proof (runs_keep _ _ _ _ _ _ Ei) as (K1 & K2 & K3). cbn [f0 env_new fe_account fe_template fe_mode] in K1, K2, K3.
    unfold sbind at 1 in H'. destruct (en_has_memory en i) eqn:Em; [|discriminate H']. cbn [sassert] in H'. unfold sret at 1 in H'.
    assert (I : instantiated e en (Some (cs_code cs)) (at_start a (cl_template cl) (cl_mode cl)) g mem i (attached f1) g1).
    { exists (cs_code cs). split; [reflexivity|]. split; [exact Ecomp|]. split; [exact Em|]. exists f1. split; [exact Ei|reflexivity]. }
    destruct (func en i (with_memory f1) (cl_func cl) SigUnit) as [fl|] eqn:Ef.
    { unfold serr in H'. injection H' as -> <-. unfold func in Ef. destruct (en_func en i (cl_func cl)) as [s|] eqn:Efn.
      - destruct s; [discriminate Ef| |]; unfold err_invalid_sig in Ef; cbn [with_memory fe_account fe_template] in Ef; rewrite K1, K2 in Ef;
          injection Ef as <- <-; eapply f_signature; eauto; discriminate.
      - unfold err_func_not_found in Ef. cbn [with_memory fe_account fe_template] in Ef. rewrite K1, K2 in Ef. injection Ef as <- <-. eapply f_missing; eauto. }
    apply func_unit in Ef. unfold sbind in H'.
    destruct (N.ltb_spec 0 (nlen (cl_input cl))) as [Hn|Hn].
    + assert (Ne : cl_input cl <> []) by (intros X; rewrite X in Hn; cbn in Hn; lia).
      unfold call_with_alloc in H'. destruct (func en i (with_memory f1) RuntimeModel.svm_alloc SigAlloc) as [fl|] eqn:Ea.
      { cbn [serr] in H'. unfold serr, err_func_not_found in H'. cbn [with_memory fe_account fe_template] in H'. rewrite K1, K2 in H'. injection H' as <- <- <-.
        eapply f_no_alloc; eauto. rewrite <- (func_alloc i (with_memory f1)), Ea. discriminate. }
      pose proof (proj1 (func_alloc i (with_memory f1)) Ea) as HA. unfold sbind at 1 in H'. rewrite wasmer_is in H'.
      destruct (run_wasm e (en_call en i RuntimeModel.svm_alloc [nlen (cl_input cl)] mem) (with_mode AccessDenied (with_memory f1)) g1)
        as [[[[mem1 [rets i1]] f2]|[msg f2]|] g2] eqn:Er; [| |discriminate H'].
      2:{ injection H' as <- <- <-. apply runs_err in Er. pose proof (runs_keep _ _ _ _ _ _ Er) as (L1 & L2 & _).
          cbn [with_mode with_memory fe_account fe_template] in L1, L2. rewrite L1, L2, K1, K2. eapply f_alloc_traps; eauto. }
      apply runs_ok in Er. pose proof (runs_keep _ _ _ _ _ _ Er) as (L1 & L2 & L3). cbn [with_mode with_memory fe_account fe_template fe_mode] in L1, L2, L3.
      unfold sbind at 1 in H'. destruct rets as [|p rest]; [discriminate H'|]. cbn [nth_error ssome] in H'. unfold sret at 1 in H'.
      unfold sbind at 1 in H'. cbn [with_mode with_logs fe_returndata] in H'.
      destruct (fe_returndata f2) as [?|] eqn:Erd; [discriminate H'|]. cbn [sassert] in H'. unfold sret at 1 in H'.
      unfold sbind at 1 in H'. destruct (mem_write mem1 p (cl_input cl)) as [mem2|] eqn:Ew; [|discriminate H']. cbn [ssome] in H'. unfold sret at 1 in H'.
      rewrite wasmer_is in H'.
      destruct (run_wasm e (en_call en i1 (cl_func cl) [] mem2) _ g2) as [[[[mem3 [rets3 i3]] f3]|[msg f3]|] g3] eqn:E3; [discriminate H'| |discriminate H'].
      injection H' as <- <- <-. apply runs_err in E3. pose proof (runs_keep _ _ _ _ _ _ E3) as (M1 & M2 & _).
      cbn [with_calldata with_mode with_logs fe_account fe_template] in M1, M2. rewrite M1, M2, L1, L2, K1, K2.
      eapply f_traps; [exact U|exact I|exact Ef| |exact E3].
      exact (supplied_input e en (cl_input cl) mem i (attached f1) g1 mem1 p rest i1 f2 g2 mem2 Ne HA Er Erd Ew).
    + assert (Em' : cl_input cl = []) by (destruct (cl_input cl); [reflexivity|cbn in Hn; lia]).
      rewrite wasmer_is in H'.
      destruct (run_wasm e (en_call en i (cl_func cl) [] mem) (with_memory f1) g1) as [[[[mem3 [rets3 i3]] f3]|[msg f3]|] g3] eqn:E3; [discriminate H'| |discriminate H'].
      injection H' as <- <- <-. apply runs_err in E3. pose proof (runs_keep _ _ _ _ _ _ E3) as (M1 & M2 & _).
      cbn [with_memory fe_account fe_template] in M1, M2. rewrite M1, M2, K1, K2.
      eapply f_traps; [exact U|exact I|exact Ef| |exact E3]. now constructor.
  - intros H. destruct H as [W N|W N|c msg U Ec C|c msg f' g' U Ec C Rn|mem i f g1 U (c & Ec & C & M & f1 & Rn & ->) Fn|mem i f g1 s U (c & Ec & C & M & f1 & Rn & ->) Fn Ns
      |mem i f g1 U (c & Ec & C & M & f1 & Rn & ->) Fn Ne NA|mem i f g1 msg f' g' U (c & Ec & C & M & f1 & Rn & ->) Fn Ne HA Ra
      |mem i f g1 mem1 i1 fx g2 msg f' g' U (c & Ec & C & M & f1 & Rn & ->) Fn Su Rf].
    all: unfold sbind at 1; try (rewrite (usage_ok cl l names f0 g EN U)).
    + destruct (usage_bad cl l names f0 g EN) as [(_ & _ & ->)|(W' & _)]; [intuition congruence|reflexivity|congruence].
    + destruct (usage_bad cl l names f0 g EN) as [(W' & _)|(_ & _ & ->)]; [intuition congruence|congruence|reflexivity].
    + destruct (has_code _ _ c Ecode Ec) as (cs & Ecs & <-). unfold sbind at 1, instantiate. rewrite Ecs. unfold sbind at 1. cbn [ssome]. unfold sret at 1. rewrite C. reflexivity.
    + destruct (has_code _ _ c Ecode Ec) as (cs & Ecs & <-). unfold sbind at 1, instantiate. rewrite Ecs. unfold sbind at 1. cbn [ssome]. unfold sret at 1. rewrite C.
      apply runs_err in Rn. change (at_start a (cl_template cl) (cl_mode cl)) with f0 in Rn. rewrite Rn. reflexivity.
    + pose proof (runs_keep _ _ _ _ _ _ Rn) as (K1 & K2 & K3). cbn [at_start fe_account fe_template fe_mode] in K1, K2, K3.
      apply runs_ok in Rn. change (at_start a (cl_template cl) (cl_mode cl)) with f0 in Rn.
      destruct (has_code _ _ c Ecode Ec) as (cs & Ecs & <-). unfold sbind at 1, instantiate. rewrite Ecs. unfold sbind at 1. cbn [ssome]. unfold sret at 1. rewrite C, Rn.
      unfold sbind at 1. rewrite M. cbn [sassert]. unfold sret at 1. unfold func. rewrite Fn. unfold serr, err_func_not_found.
      cbn [with_memory fe_account fe_template]. now rewrite K1, K2.
    + pose proof (runs_keep _ _ _ _ _ _ Rn) as (K1 & K2 & K3). cbn [at_start fe_account fe_template fe_mode] in K1, K2, K3.
      apply runs_ok in Rn. change (at_start a (cl_template cl) (cl_mode cl)) with f0 in Rn.
      destruct (has_code _ _ c Ecode Ec) as (cs & Ecs & <-). unfold sbind at 1, instantiate. rewrite Ecs. unfold sbind at 1. cbn [ssome]. unfold sret at 1. rewrite C, Rn.
      unfold sbind at 1. rewrite M. cbn [sassert]. unfold sret at 1. unfold func. rewrite Fn.
      destruct s; [congruence| |]; unfold serr, err_invalid_sig; cbn [with_memory fe_account fe_template]; now rewrite K1, K2.
    + pose proof (runs_keep _ _ _ _ _ _ Rn) as (K1 & K2 & K3). cbn [at_start fe_account fe_template fe_mode] in K1, K2, K3.
      apply runs_ok in Rn. change (at_start a (cl_template cl) (cl_mode cl)) with f0 in Rn.
      destruct (has_code _ _ c Ecode Ec) as (cs & Ecs & <-). unfold sbind at 1, instantiate. rewrite Ecs. unfold sbind at 1. cbn [ssome]. unfold sret at 1. rewrite C, Rn.
      unfold sbind at 1. rewrite M. cbn [sassert]. unfold sret at 1. rewrite (proj2 (func_unit _ (with_memory f1) _) Fn).
      unfold sbind. destruct (N.ltb_spec 0 (nlen (cl_input cl))) as [Hn|Hn]; [|destruct (cl_input cl); [congruence|cbn in Hn; lia]].
      unfold call_with_alloc. destruct (func en i (with_memory f1) RuntimeModel.svm_alloc SigAlloc) eqn:Ea; [|exfalso; apply NA; now apply (func_alloc i (with_memory f1))].
      unfold serr, err_func_not_found. cbn [with_memory fe_account fe_template]. now rewrite K1, K2.
    + pose proof (runs_keep _ _ _ _ _ _ Rn) as (K1 & K2 & K3). cbn [at_start fe_account fe_template fe_mode] in K1, K2, K3.
      apply runs_ok in Rn. change (at_start a (cl_template cl) (cl_mode cl)) with f0 in Rn.
      destruct (has_code _ _ c Ecode Ec) as (cs & Ecs & <-). unfold sbind at 1, instantiate. rewrite Ecs. unfold sbind at 1. cbn [ssome]. unfold sret at 1. rewrite C, Rn.
      unfold sbind at 1. rewrite M. cbn [sassert]. unfold sret at 1. rewrite (proj2 (func_unit _ (with_memory f1) _) Fn).
      unfold sbind. destruct (N.ltb_spec 0 (nlen (cl_input cl))) as [Hn|Hn]; [|destruct (cl_input cl); [congruence|cbn in Hn; lia]].
      unfold call_with_alloc. rewrite (proj2 (func_alloc i (with_memory f1)) HA). unfold sbind at 1. rewrite wasmer_is.
      pose proof (runs_keep _ _ _ _ _ _ Ra) as (L1 & L2 & _). cbn [locked_out attached fe_account fe_template] in L1, L2.
      apply runs_err in Ra. change (run_wasm e (en_call en i RuntimeModel.svm_alloc [nlen (cl_input cl)] mem) (with_mode AccessDenied (with_memory f1)) g1 = (Err (msg, f'), g')) in Ra.
      rewrite Ra. now rewrite L1, L2, K1, K2.
    + pose proof (runs_keep _ _ _ _ _ _ Rn) as (K1 & K2 & K3). cbn [at_start fe_account fe_template fe_mode] in K1, K2, K3.
      apply runs_ok in Rn. change (at_start a (cl_template cl) (cl_mode cl)) with f0 in Rn.
      destruct (has_code _ _ c Ecode Ec) as (cs & Ecs & <-). unfold sbind at 1, instantiate. rewrite Ecs. unfold sbind at 1. cbn [ssome]. unfold sret at 1. rewrite C, Rn.
      unfold sbind at 1. rewrite M. cbn [sassert]. unfold sret at 1. rewrite (proj2 (func_unit _ (with_memory f1) _) Fn).
      pose proof (runs_keep _ _ _ _ _ _ Rf) as (M1 & M2 & _).
      unfold sbind. pose proof (conj K1 (conj K2 (conj M1 M2))) as Keep. clear K1 K2 K3 M1 M2. revert Keep.
      inversion Su as [? ? ? ? Z|? ? ? ? memx p rest ix fy gx memy Ne HA Ra Erd Ew]; subst; intros (K1 & K2 & M1 & M2).
      * rewrite Z. cbn [nlen length N.of_nat]. change (0 <? 0) with false. cbv iota. rewrite wasmer_is. apply runs_err in Rf.
        change (run_wasm e (en_call en i1 (cl_func cl) [] mem1) (with_memory f1) g2 = (Err (msg, f'), g')) in Rf. rewrite Rf.
        cbn [attached fe_account fe_template] in M1, M2. rewrite M1, M2, K1, K2. reflexivity.
      * destruct (N.ltb_spec 0 (nlen (cl_input cl))) as [Hn|Hn]; [|destruct (cl_input cl); [congruence|cbn in Hn; lia]].
        pose proof (runs_keep _ _ _ _ _ _ Ra) as (L1 & L2 & _). cbn [locked_out attached fe_account fe_template] in L1, L2.
        unfold call_with_alloc. rewrite (proj2 (func_alloc i (with_memory f1)) HA). unfold sbind at 1. rewrite wasmer_is.
        apply runs_ok in Ra. change (run_wasm e (en_call en i RuntimeModel.svm_alloc [nlen (cl_input cl)] mem) (with_mode AccessDenied (with_memory f1)) g1 = (Ok (memx, (p :: rest, i1), fy), g2)) in Ra.
        rewrite Ra. unfold sbind at 1. cbn [nth_error ssome]. unfold sret at 1. unfold sbind at 1. cbn [with_mode with_logs fe_returndata]. rewrite Erd. cbn [sassert]. unfold sret at 1.
        unfold sbind at 1. rewrite Ew. cbn [ssome]. unfold sret at 1. rewrite wasmer_is. apply runs_err in Rf.
        change (run_wasm e (en_call en i1 (cl_func cl) [] mem1) (with_calldata (p, nlen (cl_input cl)) (with_mode (fe_mode (with_memory f1)) (with_logs [] fy))) g2 = (Err (msg, f'), g')) in Rf.
        rewrite Rf. cbn [given fe_account fe_template] in M1, M2. rewrite M1, M2, L1, L2, K1, K2. reflexivity.
Qed.
Lemma run_returns cl l names code a mem' logs f' g g' :
  get_section KCtors l = Some (SCtors names) ->
  code = match get_section KCode l with Some (SCode c) => Some (cs_code c) | _ => None end ->
  run e en cl l (env_new a (cl_template cl) (cl_mode cl)) g = (Ok (mem', logs, f'), g') <->
  (In (cl_func cl) names <-> cl_within_spawn cl = true) /\
  exists mem i f g1 mem1 i1 f1 g2 r fx,
    instantiated e en code (at_start a (cl_template cl) (cl_mode cl)) g mem i f g1 /\ en_func en i (cl_func cl) = Some SigUnit /\
    supplied e en (cl_input cl) mem i f g1 mem1 i1 f1 g2 /\ runs e (en_call en i1 (cl_func cl) [] mem1) f1 g2 (Returned mem' r fx) g' /\
    logs = fe_logs fx /\ f' = with_logs [] fx.
Proof.
  intros EN EC.
  set (f0 := env_new a (cl_template cl) (cl_mode cl)).
  assert (Ecode : code = option_map cs_code (code_of l)) by (rewrite EC; unfold code_of; destruct (get_section KCode l) as [[]|]; reflexivity).
  clear EC.
  unfold run. split.
  - intros H.
    destruct (usage_either cl names) as [U|U].
    2:{ destruct (usage_bad cl l names f0 g EN U) as [(_ & _ & E)|(_ & _ & E)]; unfold sbind at 1 in H; rewrite E in H; discriminate H. }
    split; [exact U|].
    unfold sbind at 1 in H. rewrite (usage_ok cl l names f0 g EN U) in H. rename H into H'.
    unfold instantiate in H'. destruct (code_of l) as [cs|]; [|discriminate H']. cbn [option_map] in Ecode. subst code. unfold sbind at 1 2 in H'. cbn [ssome sret] in H'. unfold sret at 1 in H'.
    destruct (en_compile en (cs_code cs)) as [msg|] eqn:Ecomp; [discriminate H'|].
    destruct (run_wasm e (en_instantiate en (cs_code cs)) f0 g) as [[[[mem i] f1]|[msg f1]|] g1] eqn:Ei; [|discriminate H'..].
    apply runs_ok in Ei.
    unfold sbind at 1 in H'. destruct (en_has_memory en i) eqn:Em; [|discriminate H']. cbn [sassert] in H'. unfold sret at 1 in H'.
    assert (I : instantiated e en (Some (cs_code cs)) (at_start a (cl_template cl) (cl_mode cl)) g mem i (attached f1) g1).
    { exists (cs_code cs). split; [reflexivity|]. split; [exact Ecomp|]. split; [exact Em|]. exists f1. split; [exact Ei|reflexivity]. }
    destruct (func en i (with_memory f1) (cl_func cl) SigUnit) as [fl|] eqn:Ef; [discriminate H'|].
    apply func_unit in Ef. unfold sbind in H'.
    destruct (N.ltb_spec 0 (nlen (cl_input cl))) as [Hn|Hn].
    + assert (Ne : cl_input cl <> []) by (intros X; rewrite X in Hn; cbn in Hn; lia).
      unfold call_with_alloc in H'. destruct (func en i (with_memory f1) RuntimeModel.svm_alloc SigAlloc) as [fl|] eqn:Ea; [discriminate H'|].
      pose proof (proj1 (func_alloc i (with_memory f1)) Ea) as HA. unfold sbind at 1 in H'. rewrite wasmer_is in H'.
      destruct (run_wasm e (en_call en i RuntimeModel.svm_alloc [nlen (cl_input cl)] mem) (with_mode AccessDenied (with_memory f1)) g1)
        as [[[[mem1 [rets i1]] f2]|[msg f2]|] g2] eqn:Er; [|discriminate H'..].
      apply runs_ok in Er.
      unfold sbind at 1 in H'. destruct rets as [|p rest]; [discriminate H'|]. cbn [nth_error ssome] in H'. unfold sret at 1 in H'.
      unfold sbind at 1 in H'. cbn [with_mode with_logs fe_returndata] in H'.
      destruct (fe_returndata f2) as [?|] eqn:Erd; [discriminate H'|]. cbn [sassert] in H'. unfold sret at 1 in H'.
      unfold sbind at 1 in H'. destruct (mem_write mem1 p (cl_input cl)) as [mem2|] eqn:Ew; [|discriminate H']. cbn [ssome] in H'. unfold sret at 1 in H'.
      rewrite wasmer_is in H'.
      destruct (run_wasm e (en_call en i1 (cl_func cl) [] mem2) _ g2) as [[[[mem3 [rets3 i3]] f3]|[msg f3]|] g3] eqn:E3; [|discriminate H'..].
      unfold sret in H'. injection H' as <- <- <- <-. apply runs_ok in E3.
      exists mem, i, (attached f1), g1, mem2, i1, (given (p, nlen (cl_input cl)) (fe_mode (attached f1)) f2), g2, (rets3, i3), f3.
      split; [exact I|]. split; [exact Ef|]. split; [|split; [exact E3|auto]].
      exact (supplied_input e en (cl_input cl) mem i (attached f1) g1 mem1 p rest i1 f2 g2 mem2 Ne HA Er Erd Ew).
    + assert (Em' : cl_input cl = []) by (destruct (cl_input cl); [reflexivity|cbn in Hn; lia]).
      rewrite wasmer_is in H'.
      destruct (run_wasm e (en_call en i (cl_func cl) [] mem) (with_memory f1) g1) as [[[[mem3 [rets3 i3]] f3]|[msg f3]|] g3] eqn:E3; [|discriminate H'..].
      unfold sret in H'. injection H' as <- <- <- <-. apply runs_ok in E3.
      exists mem, i, (attached f1), g1, mem, i, (attached f1), g1, (rets3, i3), f3.
      split; [exact I|]. split; [exact Ef|]. split; [now constructor|]. split; [exact E3|auto].
  - intros (U & mem & i & f & g1 & mem1 & i1 & fz & g2 & r & fx & (c & Ec & C & M & f1 & Rn & ->) & Fn & Su & Rf & -> & ->).
    unfold sbind at 1. rewrite (usage_ok cl l names f0 g EN U).
    apply runs_ok in Rn. change (at_start a (cl_template cl) (cl_mode cl)) with f0 in Rn.
    destruct (has_code _ _ c Ecode Ec) as (cs & Ecs & <-). unfold sbind at 1, instantiate. rewrite Ecs. unfold sbind at 1. cbn [ssome]. unfold sret at 1. rewrite C, Rn.
    unfold sbind at 1. rewrite M. cbn [sassert]. unfold sret at 1. rewrite (proj2 (func_unit _ (with_memory f1) _) Fn).
    destruct r as [rets3 i3].
    unfold sbind. inversion Su as [? ? ? ? Z|? ? ? ? memx p rest ix fy gx memy Ne HA Ra Erd Ew]; subst.
    + rewrite Z. cbn [nlen length N.of_nat]. change (0 <? 0) with false. cbv iota. rewrite wasmer_is. apply runs_ok in Rf.
      change (run_wasm e (en_call en i1 (cl_func cl) [] mem1) (with_memory f1) g2 = (Ok (mem', (rets3, i3), fx), g')) in Rf. now rewrite Rf.
    + destruct (N.ltb_spec 0 (nlen (cl_input cl))) as [Hn|Hn]; [|destruct (cl_input cl); [congruence|cbn in Hn; lia]].
      unfold call_with_alloc. rewrite (proj2 (func_alloc i (with_memory f1)) HA). unfold sbind at 1. rewrite wasmer_is.
      apply runs_ok in Ra. change (run_wasm e (en_call en i RuntimeModel.svm_alloc [nlen (cl_input cl)] mem) (with_mode AccessDenied (with_memory f1)) g1 = (Ok (memx, (p :: rest, i1), fy), g2)) in Ra.
      rewrite Ra. unfold sbind at 1. cbn [nth_error ssome]. unfold sret at 1. unfold sbind at 1. cbn [with_mode with_logs fe_returndata]. rewrite Erd. cbn [sassert]. unfold sret at 1.
      unfold sbind at 1. rewrite Ew. cbn [ssome]. unfold sret at 1. rewrite wasmer_is. apply runs_ok in Rf.
      change (run_wasm e (en_call en i1 (cl_func cl) [] mem1) (with_calldata (p, nlen (cl_input cl)) (with_mode (fe_mode (with_memory f1)) (with_logs [] fy))) g2 = (Ok (mem', (rets3, i3), fx), g')) in Rf.
      now rewrite Rf.
Qed.

Lemma answered_is f mem data : take_returndata f mem = Some data <-> answered_with f mem data.
Proof.
  unfold take_returndata, answered_with, mem_read. destruct (fe_returndata f) as [[p n]|]; [|split; [now intros [= <-]|now intros ->]].
  destruct (N.ltb_spec 0 n); [|split; [discriminate|lia]]. destruct (N.leb_spec (p + n) (nlen mem)); [|split; [discriminate|lia]].
  split; [intros [= <-]; auto|now intros (_ & _ & ->)].
Qed.
Lemma supplied_keeps input mem i f g mem' i' f' g' : supplied e en input mem i f g mem' i' f' g' -> fe_mode f' = fe_mode f.
Proof. destruct 1; reflexivity. Qed.
Lemma writes_after code a t mode g mem i f g1 input mem1 i1 f1 g2 func mem' r f' g' :
  instantiated e en code (at_start a t mode) g mem i f g1 -> supplied e en input mem i f g1 mem1 i1 f1 g2 ->
  runs e (en_call en i1 func [] mem1) f1 g2 (Returned mem' r f') g' -> fe_mode f' = mode.
Proof.
  intros (c & _ & _ & _ & f0 & R0 & ->) S R. apply supplied_keeps in S. destruct (runs_keep _ _ _ _ _ _ R0) as (_ & _ & M0).
  destruct (runs_keep _ _ _ _ _ _ R) as (_ & _ & M). rewrite M, S. cbn [attached fe_mode]. now rewrite M0.
Qed.

(** What executing a call says. *)
Definition executed (mode : access_mode) (spawning : bool) (target t func input : bytes) (g : gstate) (r : call_receipt) (g' : gstate) : Prop :=
  exists a ctors code, account_at e g target a t ctors code /\
  ((exists err logs, fails e en spawning a t ctors code func input mode g err logs g'
      /\ r = mkCallReceipt 0 false (Some err) None None None [] logs)
   \/ (exists data logs touched g1 state, returns_from e en spawning a t ctors code func input mode g data logs touched g1
      /\ mode = FullAccess /\ committed_as e g1 state g' /\ r = mkCallReceipt 0 true None (Some state) (Some data) None touched logs)).
Lemma unwraps {E A} (m : gm A) g a : reads m -> fst (m g) = Ok a -> @sunwrap E A m g = (Ok a, g).
Proof. intros R H. destruct (@unwrap_read E A m g R) as [(a' & E1 & E2)|(N & _)]; [congruence|now elim (N a)]. Qed.
Lemma commits f g state g' : fe_mode f = FullAccess -> commit_changes e f g = (Ok state, g') <-> committed_as e g state g'.
Proof.
  intros M. unfold commit_changes, committed_as, can_write. rewrite M. unfold sbind, sassert, sret, sunwrap. split.
  - intros H. destruct (gs_checkpoint e g) as [[[]|?|] g1]; try discriminate H.
    destruct (gs_commit e g1) as [[[layer st]|?|] g2] eqn:E2; try discriminate H. injection H as <- <-. exists g1, layer. auto.
  - intros (g1 & layer & -> & ->). reflexivity.
Qed.
Lemma commit_no_err f g x g' : commit_changes e f g <> (Err x, g').
Proof.
  unfold commit_changes, sbind, sassert, sret, sunwrap. destruct (can_write f); [|discriminate].
  destruct (gs_checkpoint e g) as [[[]|?|] g1]; try discriminate. destruct (gs_commit e g1) as [[[layer st]|?|] g2]; discriminate.
Qed.
Lemma exec_says cl g r g' : fst (account_template e (cl_target cl) g) = Ok (cl_template cl) ->
  exec_call e en cl g = (Some r, g') <-> executed (cl_mode cl) (cl_within_spawn cl) (cl_target cl) (cl_template cl) (cl_func cl) (cl_input cl) g r g'.
Proof.
  intros HT. unfold exec_call, exec, executed.
  destruct (@unwrap_read failure _ (account_load e (cl_target cl)) g (reads_load e (cl_target cl))) as [(a & La & Ua)|(Na & Ua)].
  2:{ unfold sbind at 1. rewrite Ua. split; [discriminate|]. intros (a & ? & ? & (La & _) & _). now elim (Na a). }
  unfold sbind at 1. rewrite Ua. unfold sbind at 1.
  rewrite (unwraps (account_template e (cl_target cl)) g (cl_template cl)); [|now apply reads_bind; [apply reads_decode|intros; apply reads_ret]|exact HT].
  unfold load_template. unfold sbind at 1.
  destruct (@unwrap_read failure _ (template_sections e (cl_template cl)) g (reads_sections e (cl_template cl))) as [(l & Ll & Ul)|(Nl & Ul)].
  2:{ rewrite Ul. split; [discriminate|]. intros (a' & ? & ? & (_ & _ & l & Ll & _) & _). now elim (Nl l). }
  rewrite Ul. unfold sbind at 1. rewrite Ua.
  assert (D : forall a' ctors code, account_at e g (cl_target cl) a' (cl_template cl) ctors code <->
    a' = a /\ get_section KCtors l = Some (SCtors ctors) /\ code = match get_section KCode l with Some (SCode c) => Some (cs_code c) | _ => None end).
  { intros a' ctors code. unfold account_at, deployed. split.
    - intros (X & _ & l' & Y & Z & W). rewrite La in X. rewrite Ll in Y. injection X as <-. injection Y as <-. auto.
    - intros (-> & Z & W). split; [exact La|]. split; [exact HT|]. exists l. auto. }
  assert (K : (exists names, get_section KCtors l = Some (SCtors names)) \/ is_ctor l (cl_func cl) = None).
  { unfold is_ctor, ctors_of. destruct (get_section KCtors l) as [s|]; [destruct s; eauto|]; right; reflexivity. }
  destruct K as [(names & EN)|EN].
  2:{ unfold sbind at 1, run, validate_func_usage, ensure_ctor. rewrite EN. split.
      - destruct (cl_within_spawn cl); discriminate.
      - intros (a' & ctors & code & A & _). apply D in A. destruct A as (_ & A & _). unfold is_ctor, ctors_of in EN. rewrite A in EN. discriminate. }
  set (code := match get_section KCode l with Some (SCode c) => Some (cs_code c) | _ => None end) in *.
  assert (D' : account_at e g (cl_target cl) a (cl_template cl) names code) by (apply D; auto).
  split.
  - intros H. exists a, names, code. split; [exact D'|]. unfold sbind at 1 in H.
    destruct (run e en cl l (env_new a (cl_template cl) (cl_mode cl)) g) as [[[[mem logs] f]|[err logs]|] g1] eqn:ER; [| |discriminate H].
    + right. apply (run_returns cl l names code a mem logs f g g1 EN eq_refl) in ER.
      destruct ER as (U & mem0 & i & f0 & g0 & mem1 & i1 & f1 & g2 & r0 & fx & I & Fn & S & R & -> & ->).
      assert (M : fe_mode fx = cl_mode cl) by (eapply writes_after; eauto).
      unfold outcome_to_receipt, sbind at 1 in H. destruct (take_returndata (with_logs [] fx) mem) as [data|] eqn:Ed; [|discriminate H]. cbn [ssome] in H. unfold sret at 1 in H.
      unfold sbind in H. destruct (commit_changes e (with_logs [] fx) g1) as [[state|x|] g3] eqn:Ec; [| |discriminate H].
      2:{ now apply commit_no_err in Ec. }
      unfold sret in H. injection H as <- <-.
      assert (M' : cl_mode cl = FullAccess).
      { rewrite <- M. unfold commit_changes, sbind at 1, can_write in Ec. cbn [with_logs fe_mode] in Ec. destruct (fe_mode fx); [discriminate Ec..|reflexivity]. }
      apply commits in Ec; [|cbn [with_logs fe_mode]; congruence]. apply answered_is in Ed.
      exists data, (fe_logs fx), (fe_touched fx), g1, state. split; [|split; [exact M'|split; [exact Ec|reflexivity]]]. eapply r_returns; eauto.
    + left. injection H as <- <-. exists err, logs. split; [|reflexivity]. now apply (run_fails cl l names code a err logs g g1 EN eq_refl).
  - intros (a' & ctors & code' & A & C). apply D in A. destruct A as (-> & A & Ec). rewrite EN in A. injection A as <-. fold code in Ec. subst code'.
    unfold sbind at 1. destruct C as [(err & logs & F & ->)|(data & logs & touched & g1 & state & F & HM & C & ->)].
    + apply (run_fails cl l names code a err logs g g' EN eq_refl) in F. now rewrite F.
    + destruct F as [mem0 i f0 g0 mem1 i1 f1 g2 mem r0 fx g1 data U I Fn S R An].
      assert (M : fe_mode fx = FullAccess) by (rewrite <- HM; eapply writes_after; eauto).
      rewrite (proj2 (run_returns cl l names code a mem (fe_logs fx) (with_logs [] fx) g g1 EN eq_refl)).
      2:{ split; [exact U|]. exists mem0, i, f0, g0, mem1, i1, f1, g2, r0, fx. auto 10. }
      unfold outcome_to_receipt, sbind at 1. apply answered_is in An. change (take_returndata (with_logs [] fx) mem) with (take_returndata fx mem). rewrite An. cbn [ssome]. unfold sret at 1.
      unfold sbind. rewrite (proj2 (commits (with_logs [] fx) g1 state g' M) C). reflexivity.
Qed.
Lemma call_is_executed tx g r g' : call_says e en tx g r g' <-> exists t, executed FullAccess false (tx_target tx) t (tx_func_name tx) (tx_calldata tx) g r g'.
Proof.
  split.
  - intros [a t ctors code err logs gx A F|a t ctors code data logs touched g1 state gx A F C]; exists t, a, ctors, code; (split; [exact A|]); [left|right]; eauto 12.
  - intros (t & a & ctors & code & A & [(err & logs & F & ->)|(data & logs & touched & g1 & state & F & _ & C & ->)]); [eapply says_failed|eapply says_done]; eauto.
Qed.
Lemma call_iff m g r g' : rt_call e en m g = (Some r, g') <-> exists tx, decoded dec_transaction m = Some tx /\ call_says e en tx g r g'.
Proof.
  unfold rt_call, transact. destruct (decoded dec_transaction m) as [tx|]; [|split; [discriminate|intros (? & [=] & _)]].
  assert (T : (exists x, Some tx = Some x /\ call_says e en x g r g') <-> call_says e en tx g r g') by (split; [now intros (x & [= <-] & H)|eauto]).
  rewrite T, call_is_executed. clear T.
  destruct (build_call_reads e tx FullAccess (tx_func_name tx) (tx_calldata tx) g) as [(cl & B & M & Fn & Ta & In_ & W & At)|B]; rewrite B.
  - rewrite (exec_says cl g r g') by now rewrite Ta. rewrite M, W, Ta, Fn, In_. split; [eauto|]. intros (t & a & ctors & code & A & C).
    assert (t = cl_template cl) by (destruct A as (_ & A & _); congruence). subst t. exists a, ctors, code. auto.
  - split; [discriminate|]. intros (t & a & ctors & code & (A1 & A2 & _) & _). exfalso. unfold build_call, gbind, gunwrap in B.
    pose proof (reads_load e (tx_target tx) g) as R1. destruct (account_load e (tx_target tx) g) as [o g0]. cbn [fst snd] in *. subst.
    destruct (account_template e (tx_target tx) g) as [o g0]. cbn [fst] in A2. subst. discriminate B.
Qed.
(** A verification, which may not write, answers only when it fails. *)
Lemma verify_iff m g r g' : RuntimeModel.verify e en m g = (Some r, g') <->
  exists tx a t ctors code err logs, decoded dec_transaction m = Some tx /\ account_at e g (tx_target tx) a t ctors code /\
    fails e en false a t ctors code (txt "svm_verify") (tx_verifydata tx) AccessDenied g err logs g' /\
    r = mkCallReceipt 0 false (Some err) None None None [] logs.
Proof.
  unfold RuntimeModel.verify, transact. destruct (decoded dec_transaction m) as [tx|]; [|split; [discriminate|intros (? & ? & ? & ? & ? & ? & ? & [=] & _)]].
  destruct (build_call_reads e tx AccessDenied RuntimeModel.svm_verify (tx_verifydata tx) g) as [(cl & B & M & Fn & Ta & In_ & W & At)|B]; rewrite B.
  - rewrite (exec_says cl g r g') by now rewrite Ta. rewrite M, W, Ta, Fn, In_. split.
    + intros (a & ctors & code & A & [(err & logs & F & ->)|(? & ? & ? & ? & ? & _ & [=] & _)]). exists tx, a, (cl_template cl), ctors, code, err, logs. auto.
    + intros (tx' & a & t & ctors & code & err & logs & [= <-] & A & F & ->).
      assert (t = cl_template cl) by (destruct A as (_ & A & _); congruence). subst t. exists a, ctors, code. split; [exact A|]. left. eauto.
  - split; [discriminate|]. intros (tx' & a & t & ctors & code & err & logs & [= <-] & (A1 & A2 & _) & _). exfalso. unfold build_call, gbind, gunwrap in B.
    pose proof (reads_load e (tx_target tx) g) as R1. destruct (account_load e (tx_target tx) g) as [o g0]. cbn [fst snd] in *. subst.
    destruct (account_template e (tx_target tx) g) as [o g0]. cbn [fst] in A2. subst. discriminate B.
Qed.
(** What a function leaves can be committed. *)
Lemma returns_live spawning a t ctors l func input mode g data logs touched g' code : iterates e -> collision_free e -> engine_wf en -> live e g ->
  array_wf 20 (ac_addr a) -> bytes_ok input -> get_section KCtors l = Some (SCtors ctors) ->
  code = match get_section KCode l with Some (SCode c) => Some (cs_code c) | _ => None end ->
  returns_from e en spawning a t ctors code func input mode g data logs touched g' -> live e g'.
Proof.
  intros HI HC HE HL Ha Hin EN EC [mem0 i f0 g0 mem1 i1 f1 g2 mem r0 fx g1 data' U I Fn S R An].
  assert (X : run e en (mkCall func input (ac_addr a) t spawning mode) l (env_new a t mode) g = (Ok (mem, fe_logs fx, with_logs [] fx), g1)).
  { apply (run_returns (mkCall func input (ac_addr a) t spawning mode) l ctors code a mem (fe_logs fx) (with_logs [] fx) g g1 EN EC).
    split; [exact U|]. exists mem0, i, f0, g0, mem1, i1, f1, g2, r0, fx. auto 10. }
  apply run_cases in X; auto. now destruct X.
Qed.
End Call.

(* ------------------------------------------------------------------------- *)
(** * Committing *)

Lemma live_next e g : iterates e -> live e g -> (0 <= st_next_id (gs_storage g))%Z.
Proof.
  intros HI [HR _]. destruct (reachable_settled e g HI HR) as (s0 & ops & R0 & N0 & A & <-). destruct (reachable_R e s0 HI R0) as [v H].
  assert (Hl : (-1 < next_layer v)%Z) by (rewrite <- (R_next _ _ H), N0; lia).
  destruct (exec_all_sound e ops s0 v HI H (rewinds_weaken (-1) (-2) ops ltac:(lia) A)) as [_ H'].
  destruct (perform_all_upto (-1) ops v Hl A) as [_ L]. rewrite (R_next _ _ H'). lia.
Qed.
Lemma commits_always e g : iterates e -> live e g -> exists state g', committed_as e g state g'.
Proof.
  intros HI HL. destruct (checkpoint_now e g HI HL) as (HL1 & _ & E1 & U). unfold committed_as.
  destruct (gs_checkpoint e g) as [o g1]. cbn [fst snd] in *. subst o.
  pose proof (live_next e g1 HI HL1) as Hn.
  destruct (commit_spec e (gs_storage g1) HI (gs_reachable_storage e g1 (proj1 HL1)) U) as (l & prev & fp & s' & Lp & C & _).
  assert (Hl : l = st_next_id (gs_storage g1)).
  { unfold last_layer in Lp. destruct (_ <? _)%Z; [|discriminate]. destruct (layer_fingerprint _ _ _); try discriminate. injection Lp as Lp _. lia. }
  exists fp, (mkGstate s' (gs_layer_param g1)), g1, (Z.to_N l). split; [reflexivity|].
  unfold gs_commit, gbind, gs_commit_raw. rewrite C. cbn [lift]. unfold layer_of, gsome. destruct (Z.ltb_spec l 0); [lia|reflexivity].
Qed.

(* ------------------------------------------------------------------------- *)
(** * Spawning *)

Lemma gas_says w ev m template ctor l c g :
  fst (template_sections (w_env w) template g) = Ok l -> remembers_right w g c ->
  let t := fst (check_gas_for_func (w_engine w) template l ctor (check_gas_for_payload m (tank_new (env_gas_limit ev))) c) in
  (t = Some Empty <-> ~ affords (env_gas_limit ev) (1000 * nlen m)
     \/ exists price, template_price w g template ctor price /\ ~ affords (env_gas_limit ev) (1000 * nlen m + price))
  /\ ((exists n, t = Some (NonEmpty n)) <-> exists price, template_price w g template ctor price /\ affords (env_gas_limit ev) (1000 * nlen m + price)).
Proof.
  intros El Rc. cbv zeta. unfold affords, tank_new, check_gas_for_payload. change u64_max with 18446744073709551615.
  set (n := match env_gas_limit ev with Some n => n | None => 18446744073709551615 end). clearbody n.
  destruct (N.ltb_spec (1000 * nlen m) n) as [L|L].
  2:{ assert (Em : (if tank_is_empty (if 0 <? n then NonEmpty n else Empty) then Empty else consume (if 0 <? n then NonEmpty n else Empty) (spawn_price m)) = Empty).
      { unfold spawn_price. destruct (0 <? n); cbn [tank_is_empty consume]; [|reflexivity]. now replace (1000 * nlen m <? n) with false by lia. }
      rewrite Em. unfold check_gas_for_func. cbn [tank_is_empty fst]. split; [split; auto; intros _; left; lia|].
      split; [intros (? & [=])|]. intros (price & _ & H). lia. }
  assert (Em : (if tank_is_empty (if 0 <? n then NonEmpty n else Empty) then Empty else consume (if 0 <? n then NonEmpty n else Empty) (spawn_price m)) = NonEmpty (n - 1000 * nlen m)).
  { unfold spawn_price. replace (0 <? n) with true by lia. cbn [tank_is_empty consume]. now replace (1000 * nlen m <? n) with true by lia. }
  rewrite Em. unfold check_gas_for_func. cbn [tank_is_empty].
  assert (P : forall price, template_price w g template ctor price <-> exists cs exports prices index,
    code_of l = Some cs /\ cs_gas_mode cs = Fixed /\ en_exports (w_engine w) (cs_code cs) = Some exports /\ exports ctor = Some index /\
    en_prices (w_engine w) (cs_code cs) = Some prices /\ prices index = Some price).
  { intros price. unfold template_price. split.
    - intros (l' & cs & exports & prices & index & X & H). rewrite El in X. injection X as <-. exists cs, exports, prices, index. exact H.
    - intros (cs & exports & prices & index & H). exists l, cs, exports, prices, index. auto. }
  destruct (code_of l) as [cs|] eqn:Ec.
  2:{ cbn [fst]. split; (split; [intros H; first [discriminate H|destruct H; discriminate]|]).
      - intros [H|(price & H & _)]; [lia|]. apply P in H. destruct H as (? & ? & ? & ? & [=] & _).
      - intros (price & H & _). apply P in H. destruct H as (? & ? & ? & ? & [=] & _). }
  destruct (en_exports (w_engine w) (cs_code cs)) as [exports|] eqn:Ee.
  2:{ cbn [fst]. split; (split; [intros H; first [discriminate H|destruct H; discriminate]|]).
      - intros [H|(price & H & _)]; [lia|]. apply P in H. destruct H as (? & ? & ? & ? & [= <-] & _ & H & _). congruence.
      - intros (price & H & _). apply P in H. destruct H as (? & ? & ? & ? & [= <-] & _ & H & _). congruence. }
  destruct (cs_gas_mode cs) eqn:Egm.
  2:{ cbn [fst]. split; (split; [intros H; first [discriminate H|destruct H; discriminate]|]).
      - intros [H|(price & H & _)]; [lia|]. apply P in H. destruct H as (? & ? & ? & ? & [= <-] & H & _). congruence.
      - intros (price & H & _). apply P in H. destruct H as (? & ? & ? & ? & [= <-] & H & _). congruence. }
  destruct (exports ctor) as [index|] eqn:Ei.
  2:{ cbn [fst]. split; (split; [intros H; first [discriminate H|destruct H; discriminate]|]).
      - intros [H|(price & H & _)]; [lia|]. apply P in H. destruct H as (? & ? & ? & ? & [= <-] & _ & H1 & H2 & _). congruence.
      - intros (price & H & _). apply P in H. destruct H as (? & ? & ? & ? & [= <-] & _ & H1 & H2 & _). congruence. }
  assert (Ep : fst (price_of (w_engine w) template (cs_code cs) c) = en_prices (w_engine w) (cs_code cs)).
  { unfold price_of. destruct (cache_get template c) as [p|] eqn:Eg; cbn [fst]; [symmetry; eapply Rc; eauto|]. destruct (en_prices _ _); reflexivity. }
  destruct (price_of (w_engine w) template (cs_code cs) c) as [prices c']. cbn [fst] in *. subst prices.
  destruct (en_prices (w_engine w) (cs_code cs)) as [p|] eqn:Epp; cbn [obind].
  2:{ split; (split; [intros H; first [discriminate H|destruct H; discriminate]|]).
      - intros [H|(price & H & _)]; [lia|]. apply P in H. destruct H as (? & ? & ? & ? & [= <-] & _ & _ & _ & H & _). congruence.
      - intros (price & H & _). apply P in H. destruct H as (? & ? & ? & ? & [= <-] & _ & _ & _ & H & _). congruence. }
  destruct (p index) as [price|] eqn:Epi; cbn [obind].
  2:{ split; (split; [intros H; first [discriminate H|destruct H; discriminate]|]).
      - intros [H|(price & H & _)]; [lia|]. apply P in H. destruct H as (? & ? & ? & ? & [= <-] & _ & H1 & H2 & H & H3). congruence.
      - intros (price & H & _). apply P in H. destruct H as (? & ? & ? & ? & [= <-] & _ & H1 & H2 & H & H3). congruence. }
  assert (TP : forall q, template_price w g template ctor q <-> q = price).
  { intros q. rewrite P. split.
    - intros (? & ? & ? & ? & [= <-] & _ & H1 & H2 & H & H3). congruence.
    - intros ->. exists cs, exports, p, index. auto 10. }
  cbn [consume]. destruct (N.ltb_spec price (n - 1000 * nlen m)).
  - split; (split; [intros Y|]).
    + discriminate Y.
    + intros [Y|(q & Y & Z)]; [lia|]. apply TP in Y. subst q. lia.
    + exists price. split; [now apply TP|lia].
    + intros _. eauto.
  - split; (split; [intros Y|]).
    + right. exists price. split; [now apply TP|lia].
    + auto.
    + destruct Y; discriminate.
    + intros (q & Y & Z). apply TP in Y. subst q. lia.
Qed.

Lemma spawn_iff w ev m c g r g' : iterates (w_env w) -> collision_free (w_env w) -> hash_wf (w_env w) -> live (w_env w) g -> bytes_ok m ->
  remembers_right w g c ->
  (exists c', spawn (w_env w) (w_engine w) ev m c g = (Some r, c', g')) <-> exists sp, decoded dec_spawn m = Some sp /\ spawn_says w ev m sp g r g'.
Proof.
  intros HI HC HH HL Hm Rc. pose proof (live_typed _ g HI HC HL) as HT. unfold spawn. set (e := w_env w) in *. set (en := w_engine w) in *.
  destruct (decoded dec_spawn m) as [sp|] eqn:Ed; [|split; [intros (? & [=])|intros (? & [=] & _)]].
  assert (T : (exists x, Some sp = Some x /\ spawn_says w ev m x g r g') <-> spawn_says w ev m sp g r g') by (split; [now intros (x & [= <-] & H)|eauto]).
  rewrite T. clear T.
  assert (Hsp : spawn_wf sp) by (eapply decoded_canon; eauto using spawn_canon). destruct Hsp as [S1 S2 S3 S4 S5].
  pose proof (reads_sections e (sp_template sp) g) as R1.
  assert (Dep : forall ctors code, deployed e g (sp_template sp) ctors code -> exists l, fst (template_sections e (sp_template sp) g) = Ok l /\ get_section KCtors l = Some (SCtors ctors) /\
     code = match get_section KCode l with Some (SCode c) => Some (cs_code c) | _ => None end) by (intros ? ? H; exact H).
  pose proof (fun l => gas_says w ev m (sp_template sp) (sp_ctor sp) l c g) as Gas. fold e en in Gas.
  destruct (template_sections e (sp_template sp) g) as [o g0] eqn:El0; cbn [fst snd] in *. subst g0.
  destruct o as [l|er|].
  2,3: split; [intros (? & [=])|]; intros H; exfalso; inversion H; subst;
    match goal with D : deployed _ _ _ _ _ |- _ => apply Dep in D; destruct D as (? & [=] & _) end.
  destruct (Gas l eq_refl Rc) as [Gas1 Gas2]. clear Gas.
  assert (Names : (exists names, get_section KCtors l = Some (SCtors names)) \/ is_ctor l (sp_ctor sp) = None).
  { unfold is_ctor, ctors_of. destruct (get_section KCtors l) as [s|]; [destruct s; eauto|]; right; reflexivity. }
  destruct Names as [(names & EN)|EN].
  2:{ unfold ensure_ctor, sbind. rewrite EN. cbn [ssome]. unfold spanic. split; [intros (? & [=])|]. intros H. exfalso.
      assert (D : exists ctors code, deployed e g (sp_template sp) ctors code) by (inversion H; subst; eauto). destruct D as (ctors & code & D).
      apply Dep in D. destruct D as (? & [= <-] & Y & _). unfold is_ctor, ctors_of in EN. rewrite Y in EN. discriminate. }
  set (code := match get_section KCode l with Some (SCode c) => Some (cs_code c) | _ => None end) in *.
  assert (D1 : deployed e g (sp_template sp) names code) by (exists l; rewrite El0; auto).
  assert (D2 : forall ctors code', deployed e g (sp_template sp) ctors code' -> ctors = names /\ code' = code).
  { intros ctors code' D. apply Dep in D. destruct D as (? & [= <-] & Y & ->). rewrite EN in Y. injection Y as <-. auto. }
  destruct (is_ctor_in l names (sp_ctor sp) EN) as (b & Eb & Hb). unfold ensure_ctor, sbind. rewrite Eb. cbn [ssome]. unfold sret at 1.
  destruct b.
  2:{ cbn [serr]. assert (NI : ~ In (sp_ctor sp) names) by (intros X; apply Hb in X; discriminate). unfold serr. split.
      - intros (c' & [= <- <- <-]). eapply spawn_not_ctor; eauto.
      - intros H. inversion H; subst; match goal with D : deployed _ _ _ _ _ |- _ => apply D2 in D; destruct D as [-> ->] end; try contradiction. eexists. reflexivity. }
  unfold sret at 1. assert (IN : In (sp_ctor sp) names) by now apply Hb.
  destruct (check_gas_for_func en (sp_template sp) l (sp_ctor sp) (check_gas_for_payload m (tank_new (env_gas_limit ev))) c) as [t c1]. cbn [fst] in *.
  destruct t as [[n|]|].
  3:{ split; [intros (? & [=])|]. intros H. exfalso. inversion H; subst; match goal with D : deployed _ _ _ _ _ |- _ => apply D2 in D; destruct D as [-> ->] end; try contradiction.
      - assert (X : None = Some Empty) by (apply Gas1; auto). discriminate X.
      - assert (X : None = Some Empty) by (apply Gas1; right; eauto). discriminate X.
      - assert (X : exists n, None = Some (NonEmpty n)) by (apply Gas2; eauto). destruct X; discriminate.
      - assert (X : exists n, None = Some (NonEmpty n)) by (apply Gas2; eauto). destruct X; discriminate. }
  2:{ split.
      - intros (c' & [= <- <- <-]). destruct (proj1 Gas1 eq_refl) as [A|(price & A & B)]; [eapply spawn_too_long|eapply spawn_too_dear]; eauto.
      - intros H. inversion H; subst; match goal with D : deployed _ _ _ _ _ |- _ => apply D2 in D; destruct D as [-> ->] end; try contradiction.
        + eexists. reflexivity.
        + eexists. reflexivity.
        + exfalso. assert (X : exists n, Some Empty = Some (NonEmpty n)) by (apply Gas2; eauto). destruct X; discriminate.
        + exfalso. assert (X : exists n, Some Empty = Some (NonEmpty n)) by (apply Gas2; eauto). destruct X; discriminate. }
  destruct (proj1 Gas2 (ex_intro _ n eq_refl)) as (price & TP & Af).
  assert (NG : forall X : Prop, (~ affords (env_gas_limit ev) (1000 * nlen m) \/ exists price, template_price w g (sp_template sp) (sp_ctor sp) price /\ ~ affords (env_gas_limit ev) (1000 * nlen m + price)) -> X).
  { intros X H. apply Gas1 in H. discriminate H. }
  set (new := account_addr e (sp_template sp)) in *. change (spawned_at e (sp_template sp)) with new in *.
  assert (Hnew : array_wf 20 new) by now apply addr_wf.
  assert (EF : forall a g1, account_create e new (sp_name sp) (sp_template sp) 0 0 g = (Ok a, g1) ->
     fst (account_template e new g1) = Ok (sp_template sp) /\ fst (template_sections e (sp_template sp) g1) = Ok l).
  { intros a g1. unfold account_create, gbind. pose proof (reads_layout e (sp_template sp) g) as RL.
    destruct (template_layout e (sp_template sp) g) as [[lay|?|] g0]; cbn [snd] in *; subst; try discriminate.
    destruct (write_account_effect e new (sp_name sp) (sp_template sp) 0 0 g) as (g2 & -> & _ & O & F); auto; try reflexivity.
    cbn [gret]. intros [= _ <-]. specialize (F (proj2 HL)). unfold fields_of in F. split; [congruence|].
    transitivity (fst (template_sections e (sp_template sp) g)); [|now rewrite El0].
    eapply only_sections; [exact O|exact S2| |]; intros [Q|Q]; discriminate. }
  assert (PL : forall a ctors code' g1, placed e sp g a ctors code' g1 -> exists a', account_create e new (sp_name sp) (sp_template sp) 0 0 g = (Ok a', g1) /\ account_at e g1 new a (sp_template sp) ctors code').
  { intros ? ? ? ? H. exact H. }
  destruct (account_create e new (sp_name sp) (sp_template sp) 0 0 g) as [[a'|?|] g1] eqn:Ec.
  2,3: split; [intros (? & [=])|]; intros H; exfalso; inversion H; subst; match goal with D : deployed _ _ _ _ _ |- _ => apply D2 in D; destruct D as [-> ->] end;
       try contradiction; try (apply NG; eauto; fail); match goal with D : placed _ _ _ _ _ _ _ |- _ => apply PL in D; destruct D as (? & [=] & _) end.
  destruct (EF a' g1 eq_refl) as [F1 F2]. unfold call_ctor. fold new.
  pose proof (fun x y => exec_says e en (mkCall (sp_ctor sp) (sp_calldata sp) new (sp_template sp) true FullAccess) g1 x y F1) as EX.
  cbn [cl_mode cl_within_spawn cl_target cl_template cl_func cl_input] in EX.
  split.
  - intros (c' & H). destruct (exec_call e en _ g1) as [[rc|] g2] eqn:Ex; [|discriminate H].
    destruct (proj1 (EX rc g2) eq_refl) as (a & ctors & code' & A & C).
    assert (D : ctors = names /\ code' = code).
    { destruct A as (_ & _ & l' & Y1 & Y2 & ->). rewrite F2 in Y1. injection Y1 as <-. rewrite EN in Y2. injection Y2 as <-. auto. }
    destruct D as [-> ->].
    assert (P : placed e sp g a names code g1) by (exists a'; auto).
    destruct C as [(err & logs & F & ->)|(data & logs & touched & g3 & state & F & _ & C & ->)]; cbn in H; injection H as <- <- <-.
    + eapply spawn_failed; eauto.
    + eapply spawn_done; eauto.
  - intros H. inversion H as [? ? D|? ? D|? ? ? D|ctors code' price' a g1' err logs gx D _ TP' Af' P F|ctors code' price' a g1' data logs touched g2 state gx D _ TP' Af' P F C]; subst;
      apply D2 in D; destruct D as [-> ->]; try contradiction; try (apply NG; eauto; fail).
    + apply PL in P. destruct P as (a'' & [= <- <-] & A).
      rewrite (proj2 (EX (mkCallReceipt 0 false (Some err) None None None [] logs) g')); [|exists a, names, code; split; [exact A|left; eauto]]. eexists. reflexivity.
    + apply PL in P. destruct P as (a'' & [= <- <-] & A).
      rewrite (proj2 (EX (mkCallReceipt 0 true None (Some state) (Some data) None touched logs) g')); [|exists a, names, code; split; [exact A|right; eauto 12]]. eexists. reflexivity.
Qed.
