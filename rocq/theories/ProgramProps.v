(** Properties C32 (fixed-gas validation), C39 (no floating point), C40 (function count),
    C71 (termination), C72 (required exports) and C73 (validation always answers). *)
From Coq Require Import String List NArith Arith Bool Lia ZifyBool ZifyNat ZifyN.
From Verif Require Import Base Text CodecModel ReceiptModel SectionModel SectionProofs GraphModel GraphSpec GraphProofs
  ProgramModel ProgramSpec ProgramProofs.
Import ListNotations.
Open Scope string_scope.
Open Scope list_scope.
Open Scope N_scope.

(* ------------------------------------------------------------------------- *)
(** * C32 *)

(** Validation always answers, and accepts exactly the programs without [loop], without
    indirect calls, whose call targets fit in 16 bits and whose functions never lead back
    to themselves by calls. *)
Theorem C32_accepts_exactly : forall p,
  (validate_wasm p false = Ok tt \/ exists e, validate_wasm p false = Err e) /\
  (validate_wasm p false = Ok tt <->
   (forall f, ~ occurs p f Loop) /\ (forall f t, ~ occurs p f (CallIndirect t)) /\
   (forall f t, occurs p f (Call t) -> t <= 65535) /\ acyclic (calls p)).
Proof.
  intros p. destruct (validate_spec p) as [[V A]|(e & V & A)]; rewrite V.
  - split; [auto|]. split; [intros _; exact A|auto].
  - split; [eauto|]. split; [discriminate|]. intros X. now destruct A.
Qed.
Print Assumptions C32_accepts_exactly.

(** Asking for the cycles does not change what is accepted. *)
Theorem C32_same_with_cycles : forall p c, validate_wasm p c = Ok tt <-> validate_wasm p false = Ok tt.
Proof. exact validate_ok_any. Qed.
Print Assumptions C32_same_with_cycles.

(** Looking for loops alone always answers, and accepts exactly the programs without [loop] and
    without indirect calls. *)
Theorem C32_loops : forall p,
  (detect_loops p = Ok tt \/ exists e, detect_loops p = Err e) /\
  (detect_loops p = Ok tt <-> (forall f, ~ occurs p f Loop) /\ (forall f t, ~ occurs p f (CallIndirect t))).
Proof.
  intros p. unfold detect_loops.
  assert (K : forall ops, first_refused ops = None <-> ~ In Loop ops /\ forall t, ~ In (CallIndirect t) ops).
  { induction ops as [|i ops IH]; [cbn; split; auto|]. cbn [first_refused In].
    destruct i; try (rewrite IH; split; [intros [A B]; split; [intros [E|E]; [discriminate E|auto]|intros t [E|E]; [discriminate E|exact (B t E)]]
      |intros [A B]; split; [auto|intros t E; apply (B t); auto]]).
    - split; [discriminate|]. intros [A _]. exfalso. auto.
    - split; [discriminate|]. intros [_ B]. exfalso. eapply B. left. reflexivity. }
  specialize (K (concat (map snd (p_functions p)))). destruct (first_refused _) as [e|].
  - split; [right; eauto|]. split; [discriminate|]. intros [A B]. exfalso. assert (X : Some e = None); [|discriminate X]. apply K. split.
    + intros H. apply in_concat in H as (body & H1 & H2). apply in_map_iff in H1 as ((f & b) & <- & H1). apply (A f). exists b. auto.
    + intros t H. apply in_concat in H as (body & H1 & H2). apply in_map_iff in H1 as ((f & b) & <- & H1). apply (B f t). exists b. auto.
  - split; [left; reflexivity|]. split; [intros _|auto]. destruct (proj1 K eq_refl) as [A B]. split.
    + intros f (b & H1 & H2). apply A. apply in_concat. exists b. split; [|exact H2]. apply in_map_iff. exists (f, b). auto.
    + intros f t (b & H1 & H2). apply (B t). apply in_concat. exists b. split; [|exact H2]. apply in_map_iff. exists (f, b). auto.
Qed.
Print Assumptions C32_loops.

(** In an accepted program no chain of calls visits a function twice, and the callers of a
    chain are among the functions of the program, so that chains are bounded. *)
Theorem C32_chains_bounded : forall p c a b l, validate_wasm p c = Ok tt -> walk (calls p) a b l ->
  NoDup l /\ nlen l <= 1 + nlen (p_functions p).
Proof.
  intros p c a b l V W. apply validate_ok_any in V. destruct (validate_spec p) as [[_ A]|(e & V' & _)]; [|congruence].
  destruct A as (_ & _ & _ & A). split; [eapply acyclic_walk_nodup; eauto|].
  pose proof (walk_short p _ _ _ A W). unfold nlen. lia.
Qed.
Print Assumptions C32_chains_bounded.

(** Whatever an accepted program does, it never has more activations than functions. *)
Theorem C32_stack_bounded : forall m v p c f st is st', program_new m v = Ok p -> validate_wasm p c = Ok tt ->
  enters p f st -> run p st is st' -> nlen st' <= nlen (p_functions p).
Proof.
  intros m v p c f st is st' _ V En R. apply validate_ok_any in V.
  destruct (validate_spec p) as [[_ A]|(e & V' & _)]; [|congruence].
  destruct A as (A1 & A2 & _ & A). assert (LF : loop_free p) by (split; auto).
  pose proof (stack_depth p st' A (run_ok p _ _ _ LF R (enters_ok p f st En))). unfold nlen. lia.
Qed.
Print Assumptions C32_stack_bounded.

(* ------------------------------------------------------------------------- *)
(** * C71 *)

(** Every execution of an accepted program stops: for each function there is a number of
    instructions that no execution of it exceeds, whatever the data, including the
    functions it calls. *)
Theorem C71_terminates : forall p c f, validate_wasm p c = Ok tt ->
  exists bound, forall st is st', enters p f st -> run p st is st' -> nlen is <= bound.
Proof.
  intros p c f V. apply validate_ok_any in V.
  destruct (validate_spec p) as [[_ A]|(e & V' & _)]; [|congruence].
  destruct A as (A1 & A2 & _ & A). assert (LF : loop_free p) by (split; auto).
  destruct (work_solution p (fun _ => 1) A) as [T HT]. exists (T f). intros st is st' En R.
  assert (TT : forall f body, get_func p f = Some body -> weigh_all p (fun _ => 1) T body <= T f).
  { intros g b G. rewrite (HT g b G). lia. }
  pose proof (run_weight p _ T _ _ _ LF TT R (enters_ok p f st En)) as H.
  destruct En as (body & G & ->). cbn [stack_weight fold_right fr_code] in H. rewrite cost_one in H.
  rewrite (HT f body G). fold (weigh_all p (fun _ => 1) T body) in H. lia.
Qed.
Print Assumptions C71_terminates.

(** A module in which function 1 calls the import 0 and function 2, in either branch of a
    condition inside a block. *)
Definition ex_module : wmodule := mkModule
  (Some [([I32], [I32]); ([], [I32]); ([], [])])
  (Some [(txt "svm", txt "svm_log", ExtFunction 2); (txt "env", txt "memory", ExtMemory)])
  (Some [0; 1])
  (Some [(txt "svm_alloc", IntFunction 1); (txt "memory", IntMemory); (txt "svm_verify", IntFunction 2)])
  (Some [[Op GetLocal; Block; Op GetLocal; If; Call 0; Br 1; Else; Call 2; Op Drop; End; End; End];
         [Op I32Const; End]]).
Definition ex_program : program := mkProgram
  [(txt "svm", txt "svm_log")] [(txt "svm_alloc", 1); (txt "svm_verify", 2)]
  [(1, [Op GetLocal; Block; Op GetLocal; If; Call 0; Br 1; Else; Call 2; Op Drop; End; End; End]);
   (2, [Op I32Const; End])].

Example ex_accepted : program_new (Some ex_module) true = Ok ex_program /\ validate_wasm ex_program false = Ok tt.
Proof. split; vm_compute; reflexivity. Qed.

(** An execution through the [else] branch, with the call. *)
Example ex_run : exists st, enters ex_program 1 st /\
  run ex_program st
    [Op GetLocal; Block; Op GetLocal; If; Call 2; Op I32Const; End; Op Drop; End; End; End] [].
Proof.
  eexists. split; [eexists; split; reflexivity|].
  eapply run_cons; [apply step_op|]. eapply run_cons; [apply step_block; reflexivity|].
  eapply run_cons; [apply step_op|]. eapply run_cons; [eapply step_if_else; reflexivity|].
  eapply run_cons; [apply step_call; [vm_compute; discriminate|reflexivity]|].
  eapply run_cons; [apply step_op|]. eapply run_cons; [apply step_finish|].
  eapply run_cons; [apply step_op|]. eapply run_cons; [apply step_end|].
  eapply run_cons; [apply step_end|]. eapply run_cons; [apply step_finish|]. apply run_nil.
Qed.
Example ex_chain : walk (calls ex_program) 1 2 [1; 2].
Proof.
  eapply walk_next; [|apply walk_here]. split; [|vm_compute; discriminate].
  eexists. split; [left; reflexivity|]. simpl. tauto.
Qed.

(** Refused: a loop, an indirect call, recursion, mutual recursion. *)
Example C32_refuses :
  validate_wasm (mkProgram [] [] [(0, [Loop; End; End])]) false = Err LoopNotAllowed /\
  validate_wasm (mkProgram [] [] [(0, [CallIndirect 0; End])]) false = Err CallIndirectNotAllowed /\
  validate_wasm (mkProgram [] [] [(0, [Op Nop; Call 0; End])]) false = Err (RecursiveCall 0 1) /\
  validate_wasm (mkProgram [] [] [(0, [Call 1; End]); (1, [Call 0; End])]) false = Err (CallCycle []).
Proof. repeat split; vm_compute; reflexivity. Qed.

(* ------------------------------------------------------------------------- *)
(** * C39 *)

(** The only floating-point instructions of an accepted program convert one float into an
    integer.  (Missing for the whole property: those are accepted, see below.) *)
Theorem C39_no_floats_partial : forall m v p f o, program_new m v = Ok p -> occurs p f (Op o) ->
  produces_float o = false /\
  (float_op o = true ->
   exists a b, op_type o = ([a], [b]) /\ is_float a = true /\ is_float b = false).
Proof.
  intros m v p f o H Oc. destruct (program_new_inv _ _ _ H) as (md & code & _ & _ & _ & _ & _ & _ & R & _).
  specialize (R _ _ Oc). cbn [refused_instr] in R.
  destruct o; try discriminate R; (split; [reflexivity|]); intros X; try discriminate X;
    eexists _, _; (split; [reflexivity|split; reflexivity]).
Qed.
Print Assumptions C39_no_floats_partial.

(** A program with an instruction that produces a float, or computes with floats, is refused
    for that reason unless it is refused for an earlier one. *)
Theorem C39_floats_refused_partial : forall md code v o body,
  m_code md = Some code -> In body code -> In (Op o) body ->
  produces_float o = true \/ (float_op o = true /\ (2 <= length (fst (op_type o)))%nat) ->
  program_new (Some md) v = Err FloatsNotAllowed \/ program_new (Some md) v = Err TooManyFunctionImports.
Proof.
  intros md code v o body Ec Ib Io F. unfold program_new. rewrite Ec.
  unfold read_imports. destruct (match m_imports md with Some l => if nlen (import_names l) <=? u16_max then Ok (import_names l)
    else Err TooManyFunctionImports | None => Ok [] end) as [im|e|] eqn:Ei; cbn [bind].
  - left. unfold validate_no_floats.
    assert (X : existsb (fun f => existsb refused_instr (snd f)) (number_functions (nlen im) code) = true).
    { apply existsb_exists. destruct (In_nth_error _ _ Ib) as [n Hn].
      exists (nlen im + N.of_nat n, body). split; [apply number_functions_spec; eauto|].
      cbn [snd]. apply existsb_exists. exists (Op o). split; auto. cbn [refused_instr].
      destruct o; try reflexivity; exfalso; destruct F as [F|[F G]]; try discriminate F; simpl in G; lia. }
    cbn [p_functions]. rewrite X. reflexivity.
  - right. destruct (m_imports md) as [l|]; [destruct (nlen (import_names l) <=? u16_max)|]; congruence.
  - exfalso. destruct (m_imports md) as [l|]; [destruct (nlen (import_names l) <=? u16_max)|]; congruence.
Qed.
Print Assumptions C39_floats_refused_partial.

(** The ten truncations and reinterpretations from float to integer are accepted: here on a
    local variable of type f64. *)
Definition float_module : wmodule := mkModule
  (Some [([], [I32])]) None (Some [0]) None (Some [[Op GetLocal; Op I32TruncSF64; End]]).
Theorem C39_no_floats_refuted :
  ~ (forall m v p f o, program_new m v = Ok p -> occurs p f (Op o) -> float_op o = false).
Proof.
  intros H. specialize (H (Some float_module) false _ 0 I32TruncSF64 eq_refl).
  assert (float_op I32TruncSF64 = true) by reflexivity. rewrite H in H0; [discriminate|].
  eexists. split; [left; reflexivity|]. simpl. tauto.
Qed.
Print Assumptions C39_no_floats_refuted.

Example C39_satisfiable : occurs ex_program 1 (Op GetLocal) /\
  In [Op F32Const; Op Drop; End] [[End]; [Op F32Const; Op Drop; End]] /\ produces_float F32Const = true.
Proof. repeat split; [eexists; split; [left; reflexivity|simpl; tauto]|simpl; tauto]. Qed.

(* ------------------------------------------------------------------------- *)
(** * C40 *)

(** At most 65535 imported and at most 65535 defined functions, numbered one after the
    other, imports first.  (Missing: the limit on both together, see below.) *)
Theorem C40_function_limit_partial : forall m v p, program_new m v = Ok p ->
  nlen (p_imports p) <= 65535 /\ nlen (p_functions p) <= 65535 /\
  forall f, defined p f <-> nlen (p_imports p) <= f < nlen (p_imports p) + nlen (p_functions p).
Proof.
  intros m v p H. destruct (program_new_inv _ _ _ H) as (md & code & _ & _ & _ & A & B & C & _).
  split; [exact A|]. split; [exact C|]. intros f.
  assert (L : nlen (p_functions p) = nlen code) by (rewrite B; unfold nlen; now rewrite number_functions_length).
  rewrite L. unfold defined. rewrite B, in_map_iff. unfold nlen in *. split.
  - intros ([g b] & <- & X). apply number_functions_spec in X. destruct X as (n & X & ->). cbn [fst].
    assert (n < length code)%nat by (apply nth_error_Some; congruence). lia.
  - intros X. destruct (nth_error code (N.to_nat (f - nlen (p_imports p)))) as [b|] eqn:E.
    + exists (f, b). split; auto. apply number_functions_spec.
      exists (N.to_nat (f - N.of_nat (length (p_imports p)))). split; [exact E|]. unfold nlen. lia.
    + apply nth_error_None in E. unfold nlen in *. lia.
Qed.
Print Assumptions C40_function_limit_partial.

(** 65535 imported functions and one defined function are accepted, and the defined function
    has the index 65535. *)
Definition big_module : wmodule := mkModule
  (Some [([], [])]) (Some (repeat ([109], [102], ExtFunction 0) (N.to_nat 65535))) (Some [0]) None (Some [[End]]).
Definition big_program : program := mkProgram (repeat ([109], [102]) (N.to_nat 65535)) [] [(65535, [End])].
Lemma import_names_repeat m f t n : import_names (repeat (m, f, ExtFunction t) n) = repeat (m, f) n.
Proof. induction n; simpl; congruence. Qed.
Lemma nlen_repeat {A} (x : A) n : nlen (repeat x n) = N.of_nat n.
Proof. unfold nlen. now rewrite repeat_length. Qed.
Theorem C40_function_limit_refuted :
  ~ (forall m v p, program_new m v = Ok p -> nlen (p_imports p) + nlen (p_functions p) <= 65535).
Proof.
  intros H. assert (X : program_new (Some big_module) false = Ok big_program).
  { unfold program_new, read_imports, big_module. cbn [m_code m_imports m_exports entries read_exports].
    rewrite import_names_repeat, nlen_repeat, N2Nat.id.
    replace (65535 <=? u16_max) with true by (vm_compute; reflexivity). cbn [bind number_functions].
    rewrite nlen_repeat, N2Nat.id. reflexivity. }
  apply H in X. cbn [big_program p_imports p_functions] in X. rewrite nlen_repeat, N2Nat.id in X.
  revert X. apply N.lt_nge. vm_compute. reflexivity.
Qed.
Print Assumptions C40_function_limit_refuted.

Example C40_satisfiable : program_new (Some ex_module) true = Ok ex_program /\ defined ex_program 2.
Proof. split; [vm_compute; reflexivity|right; left; reflexivity]. Qed.

(* ------------------------------------------------------------------------- *)
(** * C72 *)

(** A template accepted for deployment exports [svm_alloc] of type i32 -> i32 and
    [svm_verify] of type () -> i32, both with a body in the module, and every export with
    one of those names is such. *)
Theorem C72_required_exports : forall md p, program_new (Some md) true = Ok p ->
  (exists kind, In (txt "svm_alloc", kind) (entries (m_exports md))) /\
  (exists kind, In (txt "svm_verify", kind) (entries (m_exports md))) /\
  (forall kind, In (txt "svm_alloc", kind) (entries (m_exports md)) -> export_type md kind ([I32], [I32])) /\
  (forall kind, In (txt "svm_verify", kind) (entries (m_exports md)) -> export_type md kind ([], [I32])).
Proof.
  intros md p H. destruct (program_new_inv _ _ _ H) as (md' & code & E & _ & _ & _ & _ & _ & _ & V).
  apply Some_inj in E. subst md'. specialize (V eq_refl). unfold module_validate_exports in V.
  destruct (check_exports _ _ _ _ _ _) as [[a v]|e|] eqn:C; cbn [bind fst snd] in V; try discriminate.
  destruct a; cbn [negb] in V; [|discriminate]. destruct v; cbn [negb] in V; [|discriminate].
  apply check_exports_ok in C. destruct C as (A & B & C & D).
  split; [destruct (C eq_refl) as [X|X]; [discriminate|exact X]|].
  split; [destruct (D eq_refl) as [X|X]; [discriminate|exact X]|]. split; [exact A|exact B].
Qed.
Print Assumptions C72_required_exports.

(* ------------------------------------------------------------------------- *)
(** * C73 *)

(** Exports that designate functions of the module, whose types exist: true of every
    valid module that does not export an imported function. *)
Definition own_exports (md : wmodule) : Prop :=
  forall name i, In (name, IntFunction i) (entries (m_exports md)) -> exists t, export_type md (IntFunction i) t.

Lemma check_exports_answers md l : forall a v,
  (forall name i, In (name, IntFunction i) l -> exists t, export_type md (IntFunction i) t) ->
  check_exports l (nlen (import_names (entries (m_imports md)))) (entries (m_functions md)) (entries (m_types md)) a v
    <> Panic.
Proof.
  induction l as [|[name kind] l IH]; intros a v H; cbn [check_exports]; [discriminate|].
  assert (Hl : forall name i, In (name, IntFunction i) l -> exists t, export_type md (IntFunction i) t).
  { intros n i X. apply (H n). now right. }
  assert (S : forall nm ps rs, validate_func_signature nm kind (nlen (import_names (entries (m_imports md))))
            (entries (m_functions md)) (entries (m_types md)) ps rs <> Panic).
  { intros nm ps rs. unfold validate_func_signature, export_func_signature.
    destruct kind as [i| | |]; cbn [bind]; try discriminate.
    destruct (H name i (or_introl eq_refl)) as (t & g & n & ref & E1 & E2 & E3 & E4).
    injection E1 as <-. rewrite <- function_imports_spec, E2.
    destruct (N.leb_spec (function_imports md) (function_imports md + N.of_nat n)); [|lia].
    replace (N.to_nat (function_imports md + N.of_nat n - function_imports md)) with n by lia.
    rewrite E3, E4. cbn [bind]. destruct (value_types_eqb _ _ && value_types_eqb _ _); discriminate. }
  destruct (bytes_eqb name svm_alloc_name).
  - specialize (S svm_alloc_name [I32] [I32]). destruct (validate_func_signature _ _ _ _ _ _ _); cbn [bind]; auto; discriminate.
  - destruct (bytes_eqb name svm_verify_name); auto.
    specialize (S svm_verify_name [] [I32]). destruct (validate_func_signature _ _ _ _ _ _ _); cbn [bind]; auto; discriminate.
Qed.

(** Deployment validation answers on every decodable message whose module exports only its
    own functions.  (Missing: the other modules, and the messages on which decoding aborts.) *)
Theorem C73_validation_answers_partial : forall parse message l rest,
  dec_template None message = Ok (l, rest) -> In KCode (map section_kind_of l) ->
  (forall code md, parse code = Some md -> own_exports md) ->
  validate_deploy parse message <> Panic.
Proof.
  intros parse message l rest D K Ow. unfold validate_deploy. rewrite D.
  destruct (template_code l) as [code|] eqn:Tc.
  2:{ exfalso. unfold template_code in Tc.
      destruct (find (fun s => kind_eqb KCode (section_kind_of s)) l) as [s|] eqn:F.
      - apply find_some in F. destruct F as [_ F]. destruct s; discriminate.
      - apply in_map_iff in K. destruct K as (s & E & K). pose proof (find_none _ _ F _ K) as X.
        cbv beta in X. rewrite E in X. discriminate. }
  assert (P : program_new (parse code) true <> Panic).
  { unfold program_new. destruct (parse code) as [md|] eqn:Pm; [|discriminate].
    destruct (m_code md); [|discriminate].
    destruct (read_imports md) as [im|e|] eqn:Ri; cbn [bind]; [|discriminate|].
    2:{ unfold read_imports in Ri. destruct (m_imports md) as [x|]; [destruct (nlen (import_names x) <=? u16_max)|]; discriminate. }
    unfold validate_no_floats. destruct (existsb _ _); cbn [bind]; [discriminate|].
    unfold module_validate_exports.
    pose proof (check_exports_answers md (entries (m_exports md)) false false (Ow code md Pm)) as C.
    destruct (check_exports _ _ _ _ _ _) as [[a v]|e|]; cbn [bind fst snd]; [|discriminate|congruence].
    destruct a, v; cbn [negb]; cbn [bind]; try discriminate.
    destruct (_ <? _); discriminate. }
  destruct (program_new (parse code) true) as [p|e|]; [|discriminate|congruence].
  destruct (validate_spec p) as [[V _]|(e & V & _)]; rewrite V; discriminate.
Qed.
Print Assumptions C73_validation_answers_partial.

(** A module that exports an imported function as [svm_alloc] aborts the node. *)
Definition reexport_module : wmodule := mkModule
  (Some [([I32], [I32])]) (Some [(txt "svm", txt "svm_static_alloc", ExtFunction 0)]) (Some [])
  (Some [(txt "svm_alloc", IntFunction 0)]) (Some []).
Definition ex_template : sections :=
  [SCode (mkCode 1 [0; 97; 115; 109] 1 Fixed); SData []; SCtors []].
Theorem C73_validation_answers_refuted :
  ~ (forall parse message l rest, dec_template None message = Ok (l, rest) ->
       In KCode (map section_kind_of l) -> validate_deploy parse message <> Panic).
Proof.
  intros H.
  refine (H (fun _ => Some reexport_module)
    (match enc_sections ex_template with Some b => b | None => [] end) ex_template [] _ _ _);
    [vm_compute; reflexivity|simpl; tauto|vm_compute; reflexivity].
Qed.
Print Assumptions C73_validation_answers_refuted.

Example C73_satisfiable : own_exports ex_module /\
  dec_template None (match enc_sections ex_template with Some b => b | None => [] end) = Ok (ex_template, []) /\
  validate_deploy (fun _ => Some ex_module) (match enc_sections ex_template with Some b => b | None => [] end) = Ok tt.
Proof.
  split; [|split; vm_compute; reflexivity].
  intros name i X. simpl in X. destruct X as [X|[X|[X|[]]]]; inversion X; subst.
  - exists ([I32], [I32]), 1, O, 0. repeat split; vm_compute; reflexivity.
  - exists ([], [I32]), 2, 1%nat, 1. repeat split; vm_compute; reflexivity.
Qed.
