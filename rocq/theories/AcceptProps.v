(** Property C118: which modules are accepted, which are refused and why, and what is read. *)
From Coq Require Import String List NArith Arith Bool Lia ZifyBool ZifyNat ZifyN.
From Verif Require Import Base Text CodecModel ReceiptModel SectionModel GraphModel GraphSpec ProgramModel ProgramSpec ProgramProofs ProgramProps
  AcceptSpec AcceptProofs.
Import ListNotations.
Open Scope string_scope.
Open Scope list_scope.
Open Scope N_scope.

(** A module is accepted exactly when it has code, at most 65535 imported functions and at most
    65535 functions of its own, none of the banned instructions and, where it matters, the
    required exports.  The program is then what the module says. *)
Theorem C118_accepts : forall m v,
  ((exists p, program_new m v = Ok p) <-> exists md code, m = Some md /\ accepted md v code) /\
  (forall md code p, m = Some md -> m_code md = Some code -> program_new m v = Ok p -> reads_as md code p).
Proof.
  intros m v. split.
  - split.
    + intros [p H]. apply new_iff in H as (md & code & A & B & _). eauto.
    + intros (md & code & -> & A). exists (read_program md code). now apply new_accepted.
  - intros md code p -> C H. apply new_iff in H as (md' & code' & E & A & ->). apply Some_inj in E. subst md'.
    destruct A as [A _]. assert (code' = code) as -> by congruence. apply program_reads.
Qed.
Print Assumptions C118_accepts.

(** Every refusal has its reason, and the first of the reasons that applies is reported. *)
Theorem C118_refuses : forall m v e, program_new m v = Err e <-> refused v m (Err e).
Proof.
  intros m v e. split.
  - intros H. destruct (new_total m v) as [(md & code & -> & A)|[o R]]; [rewrite (new_accepted _ _ _ A) in H; discriminate H|].
    destruct (new_refused _ _ _ R) as [E _]. rewrite H in E. cbn [forget] in E. now subst o.
  - intros R. destruct (new_refused _ _ _ R) as [E _]. destruct (program_new m v); cbn [forget] in E; congruence.
Qed.
Print Assumptions C118_refuses.

(** The node aborts exactly on a required export that designates no function of the module,
    unless something before it is wrong. *)
Theorem C118_aborts : forall m v, program_new m v = Panic <->
  exists md code l name i r t, m = Some md /\ v = true /\ m_code md = Some code /\ function_imports md <= 65535 /\ float_free code /\
    entries (m_exports md) = l ++ (name, IntFunction i) :: r /\ Forall (good_export md) l /\
    required name t /\ forall t', ~ export_type md (IntFunction i) t'.
Proof.
  intros m v. split.
  - intros H. destruct (new_total m v) as [(md & code & -> & A)|[o R]]; [rewrite (new_accepted _ _ _ A) in H; discriminate H|].
    destruct (new_refused _ _ _ R) as [E _]. rewrite H in E. cbn [forget] in E. subst o.
    inversion R as [| | | |md code o C I F V X|]; subst. inversion X as [l e r o E G Fe| |]; subst.
    inversion Fe as [| |name t i Rq Nt]; subst. exists md, code, l, name, i, r, t. auto 12.
  - intros (md & code & l & name & i & r & t & -> & -> & C & I & F & E & G & Rq & Nt).
    assert (R : refused true (Some md) Panic).
    { eapply refused_exports; eauto. eapply fault_first; eauto. eapply fault_foreign; eauto. }
    destruct (new_refused _ _ _ R) as [X _]. destruct (program_new (Some md) true); cbn [forget] in X; congruence.
Qed.
Print Assumptions C118_aborts.

(** The fixed-gas rules report the first offending instruction, and a circle of calls only when
    there is none. *)
Theorem C118_rules : forall p e, validate_wasm p false = Err e <-> breaks_rules p e.
Proof. exact rules_iff. Qed.
Print Assumptions C118_rules.

(** A deployment is valid exactly when its message decodes to a template whose code parses to a
    deployable module. *)
Theorem C118_deploy : forall parse message,
  validate_deploy parse message = Ok tt <->
  exists template rest code md, dec_template None message = Ok (template, rest) /\
    template_code template = Some code /\ parse code = Some md /\ deployable md.
Proof.
  intros parse message. unfold validate_deploy, deployable. split.
  - destruct (dec_template None message) as [[l rest]|e|]; try discriminate. destruct (template_code l) as [code|] eqn:Tc; [|discriminate].
    destruct (program_new (parse code) true) as [p|e|] eqn:P; try discriminate.
    destruct (validate_wasm p false) as [[]|e|] eqn:V; try discriminate. intros _.
    apply new_iff in P as (md & c & Pm & A & ->). apply validated_ok, read_acceptable in V. exists l, rest, code, md. eauto 8.
  - intros (l & rest & code & md & -> & Tc & Pm & c & A & V). rewrite Tc, Pm.
    rewrite (new_accepted _ _ _ A). apply <- read_acceptable in V. apply validated_ok in V. now rewrite V.
Qed.
Print Assumptions C118_deploy.

(** An accepted module, and modules refused for one reason each. *)
Definition with_code (code : list (list instr)) : wmodule :=
  mkModule (m_types ex_module) (m_imports ex_module) (m_functions ex_module) (m_exports ex_module) (Some code).
Definition with_exports (l : list (bytes * internal)) : wmodule :=
  mkModule (m_types ex_module) (m_imports ex_module) (m_functions ex_module) (Some l) (m_code ex_module).
Example C118_satisfiable :
  (exists code, accepted ex_module true code) /\ deployable ex_module /\
  refused false (Some (with_code [[Op F32Add; End]])) (Err FloatsNotAllowed) /\
  refused true (Some (with_exports [(txt "svm_verify", IntFunction 2)])) (Err (FunctionNotFound (txt "svm_alloc"))) /\
  refused true (Some (with_exports [(txt "svm_verify", IntFunction 1)])) (Err (InvalidExportFunctionSignature (txt "svm_verify"))) /\
  refused true (Some (with_exports [(txt "svm_alloc", IntMemory)])) (Err InvalidExportKind) /\
  refused true (Some (with_exports [(txt "svm_alloc", IntFunction 0)])) Panic /\
  breaks_rules (mkProgram [] [] [(0, [Op Nop; Call 1; End]); (1, [Op Nop; Call 1; Loop; End])]) (RecursiveCall 1 1) /\
  breaks_rules (mkProgram [] [] [(0, [Call 1; End]); (1, [Call 0; End])]) (CallCycle []).
Proof.
  assert (A : exists p, program_new (Some ex_module) true = Ok p) by (exists ex_program; apply ex_accepted).
  assert (B : program_new (Some ex_module) true = Ok ex_program /\ validate_wasm ex_program false = Ok tt) by apply ex_accepted.
  split; [apply C118_accepts in A as (md & code & E & A); apply Some_inj in E; subst md; eauto|].
  split; [destruct B as [B1 B2]; apply new_iff in B1 as (md & code & E & A' & Ep); apply Some_inj in E; subst md; rewrite Ep in B2;
    apply validated_ok, read_acceptable in B2; exists code; auto|].
  split; [apply C118_refuses; vm_compute; reflexivity|]. split; [apply C118_refuses; vm_compute; reflexivity|].
  split; [apply C118_refuses; vm_compute; reflexivity|]. split; [apply C118_refuses; vm_compute; reflexivity|].
  split; [|split; apply C118_rules; vm_compute; reflexivity].
  assert (P : program_new (Some (with_exports [(txt "svm_alloc", IntFunction 0)])) true = Panic) by (vm_compute; reflexivity).
  apply C118_aborts in P as (md & code & l & name & i & r & t & E & _ & C & I & F & X & G & Rq & Nt). apply Some_inj in E. subst md.
  eapply refused_exports; eauto. eapply fault_first; eauto. eapply fault_foreign; eauto.
Qed.
