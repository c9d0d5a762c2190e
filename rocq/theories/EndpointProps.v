(** C99: arguments and results of a template's functions. *)
From Coq Require Import List NArith ZArith Bool Lia String.
From Coq Require Import ZifyBool ZifyNat ZifyN.
From Verif Require Import Base StorageModel SectionModel ReceiptModel Text GlobalModel RuntimeModel RuntimeSpec RuntimeProofs RuntimeProps.
From Verif Require Import SdkModel AbiModel AbiSpec AbiProofs TypedModel TypedProofs EndpointModel EndpointSpec EndpointProofs.
Import ListNotations.
Open Scope list_scope.
Open Scope N_scope.

(** ** C99 A function gets its arguments, and its caller what it returns *)

(** The caller encodes arguments of the types of the function's parameters.  If the receipt is
    successful, its bytes are read back as the values that the body, entered with exactly these
    arguments, returned.
    Missing: parameters that are units, options or arrays (C121), returned arrays of eight elements, and returned
    addresses that stand where the answer is written (see the refutations below). *)
Theorem C99_call_partial :
  forall e en cl g r g' code ts rts body args Q,
  has_code e g (cl_target cl) code -> compiled en code (cl_func cl) ts (Some rts) body ->
  Forall2 prim_typed ts args -> encodes_args args (cl_input cl) ->
  Forall (fun t => forall p, t <> YArray p 8) rts ->
  answers e body args (nlen (cl_input cl)) rts Q ->
  exec_call e en cl g = (Some r, g') -> cr_success r = true ->
  exists vs data, cr_returndata r = Some data /\ reads_back rts data vs /\ Q vs.
Proof.
  intros e en cl g r g' code ts rts body args Q Hc Hx T Ein N8 HA Ex Hs.
  destruct (success_main e en cl g r g' code ts (Some rts) body args Hc Hx T Ein Ex Hs) as (hs & mem & f & g1 & mem' & f' & g2 & D & L & _ & Em & Er).
  apply main_inv in Em as (rs & mem1 & f1 & g3 & Eb & Ee).
  destruct (HA hs mem f g1 rs mem1 f1 g3 D L Eb) as (vs & Tv & St & B & L1 & HQ).
  pose proof (proj1 (epilogue_run e rts vs rs mem1 f1 g3 Tv St B L1) mem' f' g2 Ee) as X.
  exists vs, (answer vs). split; [congruence|]. split; [|exact HQ]. unfold reads_back.
  assert (N8' : Forall (fun v => ~ array_of_eight (rust_value v)) vs).
  { clear -N8 Tv. induction Tv as [|t v ts vs T _ IH]; constructor; inversion_clear N8 as [|? ? N1 N2]; [|auto].
    intros X. destruct v as [|p|[p|]|l]; try contradiction X. destruct t as [| | |t n]; try contradiction T. destruct T as (En & _).
    apply (N1 t). f_equal. cbn in X. unfold nlen in *. rewrite map_length in X. lia. }
  pose proof (next_tuple_ok rts vs [] [] Tv N8') as Nx. rewrite app_nil_r in Nx. eexists. split; [exact Nx|]. apply next_end.
Qed.
Print Assumptions C99_call_partial.
(** Such a call completes, if the body does, and if there is room in the contract's memory for
    twice the arguments and twice the largest answer. *)
Theorem C99_completes_partial :
  forall e en i f name ts rts body args input mem g Q,
  exports_alloc en i -> exports en i name (endpoint ts (Some rts) body) -> ts <> [] -> rts <> [] ->
  Forall2 prim_typed ts args -> encodes_args args input ->
  fe_memory f = true -> fe_returndata f = None ->
  fe_used f + 2 * nlen input <= nlen mem -> nlen mem < 2 ^ 32 ->
  answers e body args (nlen input) rts Q -> returns e body args (nlen input) rts (fe_used f + nlen input) (nlen mem) g ->
  exists mem' logs f' g' vs data, call_with_alloc e en i f name input mem g = (Ok (mem', [], i, logs, f'), g')
    /\ take_returndata f' mem' = Some data /\ Q vs /\ Forall2 typed rts vs
    /\ data = flat_map format (map rust_value vs).
Proof.
  intros e en i f name ts rts body args input mem g Q Ha Hx Ne Nr T Ein Hm Hr R L HA HR.
  rewrite (encodes_formats ts args input T Ein) in *.
  destruct (enters e en i f name ts (Some rts) body args mem g Ha Hx L T Ne Hm Hr R) as (hs & mem1 & f1 & D & Ln & Hu & Hr1 & Hm1 & E).
  destruct (HR hs mem1 f1 D Ln Hu Hm1) as (rs & mem2 & f2 & g2 & Eb & Hm2 & R2).
  destruct (HA hs mem1 f1 g rs mem2 f2 g2 D ltac:(lia) Eb) as (vs & Tv & St & B & L2 & HQ).
  destruct (epilogue_run e rts vs rs mem2 f2 g2 Tv St B L2) as [P1 P2]. destruct (P2 Nr Hm2 R2) as (mem3 & f3 & E3).
  exists mem3, (fe_logs f3), (with_logs [] f3), g2, vs, (answer vs). split.
  - rewrite E. unfold main, cbind. rewrite run_wbind, Eb, E3. reflexivity.
  - split; [|auto]. exact (P1 _ _ _ E3).
Qed.
Print Assumptions C99_completes_partial.
(** A function without return type leaves the receipt's bytes empty. *)
Theorem C99_no_result :
  forall e en cl g r g' code ts body args,
  has_code e g (cl_target cl) code -> compiled en code (cl_func cl) ts None body ->
  Forall2 prim_typed ts args -> encodes_args args (cl_input cl) -> leaves_returndata e body ->
  exec_call e en cl g = (Some r, g') -> cr_success r = true -> cr_returndata r = Some [].
Proof.
  intros e en cl g r g' code ts body args Hc Hx T Ein HL Ex Hs.
  destruct (success_main e en cl g r g' code ts None body args Hc Hx T Ein Ex Hs) as (hs & mem & f & g1 & mem' & f' & g2 & D & L & Hr & Em & Er).
  apply main_inv in Em as (rs & mem1 & f1 & g3 & Eb & Ee). cbn [epilogue cret run_wasm] in Ee. injection Ee as <- <- <-.
  rewrite Er. unfold take_returndata. rewrite (HL _ _ _ _ _ _ _ _ Eb), Hr. reflexivity.
Qed.
Print Assumptions C99_no_result.
(** Whatever the body: a call with bytes that do not begin with values of the parameters' types
    does not succeed. *)
Theorem C99_other_arguments :
  forall e en cl g code ts ret body,
  has_code e g (cl_target cl) code -> compiled en code (cl_func cl) ts ret body ->
  (forall args c, next_tuple (map YPrim ts) (calldata_new (cl_input cl)) <> Some (map RPrim args, c)) ->
  forall r g', exec_call e en cl g = (Some r, g') -> cr_success r = false.
Proof.
  intros e en cl g code ts ret body Hc (mem0 & i0 & Ei & L & Ha & Hx) W r g' Ex. destruct (cr_success r) eqn:Hs; [exfalso|reflexivity].
  destruct (success_steps e en cl g r g' code Hc Ex Hs) as (a & mem & i & f & g1 & mem2 & logs & f2 & g2 & E1 & (rets & i2 & E2) & Er).
  rewrite Ei in E1. cbn [run_wasm] in E1. injection E1 as <- <- <- <-.
  assert (Ne : ts <> []) by (intros ->; apply (W [] (calldata_new (cl_input cl))); reflexivity).
  destruct (0 <? nlen (cl_input cl)) eqn:C.
  - exact (refused e en i0 _ _ ts ret body _ _ _ Ha Hx L Ne W _ _ E2).
  - rewrite (wasmer_exports e en i0 _ _ _ _ _ Hx) in E2. apply called_inv in E2 as (mem' & u & f' & E2 & _).
    unfold endpoint, cbind, prologue, node_calldata in E2. destruct ts; [easy|]. rewrite run_wbind in E2. unfold cbind, host in E2. cbn [wbind] in E2.
    cbn [run_wasm host_call] in E2. unfold sbind, ssome in E2. cbn [with_memory env_new fe_calldata spanic] in E2. discriminate E2.
Qed.
Print Assumptions C99_other_arguments.

(** A function that returns all its arguments, in order, returns the arguments of the call. *)
Theorem C99_echo :
  forall e en cl g r g' code ts args,
  has_code e g (cl_target cl) code ->
  compiled en code (cl_func cl) ts (Some (map YPrim ts)) (fun hs => cret (map HVal hs)) ->
  Forall2 prim_typed ts args -> encodes_args args (cl_input cl) ->
  exec_call e en cl g = (Some r, g') -> cr_success r = true ->
  exists data, cr_returndata r = Some data /\ reads_back (map YPrim ts) data (map RPrim args).
Proof.
  intros e en cl g r g' code ts args Hc Hx T Ein Ex Hs.
  assert (T' : Forall2 typed (map YPrim ts) (map RPrim args)) by (clear -T; induction T; constructor; auto).
  assert (HA : answers e (fun hs => cret (map HVal hs)) args (nlen (cl_input cl)) (map YPrim ts) (fun vs => vs = map RPrim args)).
  { intros hs mem f g0 rs mem' f' g1 [D B] L E. cbn [cret run_wasm] in E. injection E as <- <- <- <-. exists (map RPrim args). split; [exact T'|].
    split; [clear -D; induction D; constructor; auto|]. split; [|auto]. apply Forall_map. eapply Forall_impl; [|exact B].
    pose proof (tuple_max _ _ T') as M. rewrite formats_values in M. rewrite (encodes_formats ts args _ T Ein).
    intros h; destruct h; cbn [below held_below]; auto. lia. }
  destruct (C99_call_partial e en cl g r g' code ts _ _ args _ Hc Hx T Ein ltac:(apply Forall_map, Forall_forall; intros; discriminate) HA Ex Hs) as (vs & data & Hd & Rb & ->).
  exists data. auto.
Qed.
Print Assumptions C99_echo.

(** A world with one template: its function "f" has the given types and body. *)
Definition px_engine (ts : list pty) (ret : option (list aty)) (body : list held -> code (list hval)) : engine :=
  mkEngine unit (fun _ => None) (fun _ => WReturn (repeat 0 300) tt) (fun _ => true)
    (fun _ name => if bytes_eqb name svm_alloc then Some SigAlloc else if bytes_eqb name (txt "f") then Some SigUnit else None)
    (fun _ name args mem =>
       if bytes_eqb name svm_alloc
       then wbind (generated_alloc (List.hd 0 args) mem) (fun p mem' => WReturn mem' ([p], tt))
       else wbind (endpoint ts ret body mem) (fun _ mem' => WReturn mem' ([], tt)))
    (fun _ => None) (fun _ => None).
Lemma px_exports ts ret body : exports_alloc (px_engine ts ret body) tt /\ exports (px_engine ts ret body) tt (txt "f") (endpoint ts ret body).
Proof. split; (split; [reflexivity|]); reflexivity. Qed.
Lemma px_compiled ts ret body : compiled (px_engine ts ret body) (rx_code 1) (txt "f") ts ret body.
Proof.
  destruct (px_exports ts ret body) as [A B]. exists (repeat 0 300), tt. split; [reflexivity|]. split; [vm_compute; reflexivity|]. split; [exact A|exact B].
Qed.
Definition px_input (args : list primitive) : bytes := formats args.
Definition px_call (args : list primitive) : call := mkCall (txt "f") (px_input args) rx_a (rx_taddr 1) false FullAccess.
Lemma px_code : has_code rx_env rx_state rx_a (rx_code 1).
Proof. exists (rx_taddr 1). eexists. eexists. split; [vm_compute; reflexivity|]. split; [vm_compute; reflexivity|]. split; vm_compute; reflexivity. Qed.
Definition px_returned (ts : list pty) (ret : option (list aty)) (body : list held -> code (list hval)) (args : list primitive) : option bytes :=
  match fst (exec_call rx_env (px_engine ts ret body) (px_call args) rx_state) with
  | Some r => if cr_success r then cr_returndata r else None
  | None => None
  end.
Lemma px_encodes ts args : Forall2 prim_typed ts args -> encodes_args args (px_input args).
Proof.
  intros T. assert (T' : Forall2 typed (map YPrim ts) (map RPrim args)) by (induction T; constructor; auto).
  pose proof (appends_tuple _ _ T') as A. rewrite formats_values in A.
  destruct (proj2 (appends_fits _ _ A (nlen (formats args))) ltac:(lia)) as [w Ew]. exists (nlen (formats args)), w. split; [exact Ew|].
  exact (appends_new _ _ A _ w Ew).
Qed.

(** The author's view of an argument: it stays what it was.  Here the body only gives back
    the last of its arguments after reading one of its storage variables. *)
Definition px_owner : primitive := PAddress (repeat 7 19 ++ [9]).
Definition px_late (hs : list held) : code (list hval) :=
  let~ _ := getter TAddress 2 in cret (map HVal hs).
(** An address that is an argument is overwritten by the next address the contract reads from
    its storage: the runtime's allocator answers the end of the space it takes, so that the
    arguments stand in the space it gives away next. *)
Theorem C99_arguments_kept_refuted :
  ~ (forall e en cl g r g' code t rts body args,
     has_code e g (cl_target cl) code -> compiled en code (cl_func cl) [t] (Some rts) body ->
     Forall2 prim_typed [t] args -> encodes_args args (cl_input cl) ->
     (* the body returns its argument, after reading its storage *)
     (exists id, forall hs, body hs = (let~ _ := getter TAddress id in cret (map HVal hs))) ->
     rts = [YPrim t] ->
     exec_call e en cl g = (Some r, g') -> cr_success r = true ->
     exists data, cr_returndata r = Some data /\ reads_back rts data (map RPrim args)).
Proof.
  intros H. destruct (exec_call rx_env (px_engine [YAddress] (Some [YPrim YAddress]) px_late) (px_call [px_owner]) rx_state) as [o g'] eqn:Ex.
  assert (X : match o with Some r => (cr_success r, cr_returndata r) = (true, Some (L_ADDRESS :: repeat 7 19 ++ [0])) | None => False end).
  { replace o with (fst (exec_call rx_env (px_engine [YAddress] (Some [YPrim YAddress]) px_late) (px_call [px_owner]) rx_state)) by now rewrite Ex.
    vm_compute. reflexivity. }
  destruct o as [r|]; [|exact X]. injection X as Hs Hd.
  assert (O : prim_ok px_owner) by (split; [apply bytes_okb_ok; reflexivity|reflexivity]).
  assert (T : Forall2 prim_typed [YAddress] [px_owner]) by (constructor; [split; [exact O|eexists; reflexivity]|constructor]).
  destruct (H rx_env _ (px_call [px_owner]) rx_state r g' (rx_code 1) YAddress [YPrim YAddress] px_late [px_owner]
    px_code (px_compiled _ _ _) T (px_encodes _ _ T) ltac:(exists 2; reflexivity) eq_refl Ex Hs) as (data & Hd2 & (c & Rb & _)).
  rewrite Hd in Hd2. injection Hd2 as <-. vm_compute in Rb. discriminate Rb.
Qed.
Print Assumptions C99_arguments_kept_refuted.

(** It fails for a function that returns only some of its arguments: the answer is written over
    the argument that it is to contain. *)
Definition px_pick (hs : list held) : code (list hval) :=
  match hs with [a; b; c] => cret [HVal a; HVal c] | _ => cpanic end.
Definition px_addr (n : N) : primitive := PAddress (repeat n 20).
Theorem C99_pick_refuted :
  ~ (forall e en cl g r g' code t args,
     has_code e g (cl_target cl) code -> compiled en code (cl_func cl) [t; t; t] (Some [YPrim t; YPrim t]) px_pick ->
     Forall2 prim_typed [t; t; t] args -> encodes_args args (cl_input cl) ->
     exec_call e en cl g = (Some r, g') -> cr_success r = true ->
     exists a b c data, args = [a; b; c] /\ cr_returndata r = Some data /\ reads_back [YPrim t; YPrim t] data [RPrim a; RPrim c]).
Proof.
  intros H. pose (args := [px_addr 1; px_addr 2; px_addr 3]).
  destruct (exec_call rx_env (px_engine [YAddress; YAddress; YAddress] (Some [YPrim YAddress; YPrim YAddress]) px_pick) (px_call args) rx_state) as [o g'] eqn:Ex.
  assert (X : match o with
              | Some r => (cr_success r, cr_returndata r) = (true, Some (L_ADDRESS :: repeat 1 20 ++ L_ADDRESS :: repeat 1 20))
              | None => False end).
  { replace o with (fst (exec_call rx_env (px_engine [YAddress; YAddress; YAddress] (Some [YPrim YAddress; YPrim YAddress]) px_pick) (px_call args) rx_state)) by now rewrite Ex.
    vm_compute. reflexivity. }
  destruct o as [r|]; [|exact X]. injection X as Hs Hd.
  assert (O : forall n, n < 256 -> prim_typed YAddress (px_addr n)).
  { intros n L. split; [|eexists; reflexivity]. split; [|reflexivity]. apply Forall_forall. intros x I. apply repeat_spec in I. subst x. exact L. }
  assert (T : Forall2 prim_typed [YAddress; YAddress; YAddress] args) by (repeat (constructor; [apply O; reflexivity|]); constructor).
  destruct (H rx_env _ (px_call args) rx_state r g' (rx_code 1) YAddress args px_code (px_compiled _ _ _) T (px_encodes _ _ T) Ex Hs)
    as (a & b & c & data & Ea & Hd2 & (cu & Rb & _)).
  rewrite Hd in Hd2. injection Hd2 as <-. unfold args in Ea. injection Ea as <- <- <-. vm_compute in Rb. discriminate Rb.
Qed.
Print Assumptions C99_pick_refuted.

(** The hypotheses are met by a function with two parameters that gives back the first and the
    second's successor, by one without a result, and by wrong arguments. *)
Definition px_next (hs : list held) : code (list hval) :=
  match hs with [a; HInt U32 z] => cret [HVal (HInt U32 (z + 1)); HVal a] | _ => cpanic end.
Definition px_args : list primitive := [px_addr 5; PInt U32 7].
Definition px_types : list pty := [YAddress; YInt U32].
Definition px_rets : list aty := [YPrim (YInt U32); YPrim YAddress].
Definition px_results : list rust := [RPrim (PInt U32 8); RPrim (px_addr 5)].
Lemma px_typed : Forall2 prim_typed px_types px_args /\ Forall2 typed px_rets px_results.
Proof.
  assert (O : prim_typed YAddress (px_addr 5)).
  { split; [|eexists; reflexivity]. split; [|reflexivity]. apply Forall_forall. intros x I. apply repeat_spec in I. now subst x. }
  assert (U : forall z, (0 <= z < 100)%Z -> prim_typed (YInt U32) (PInt U32 z)).
  { intros z Hz. split; [|eexists; reflexivity]. cbn [prim_ok]. tables. cbn [ity_signed ity_bits]. change (2 ^ 32)%Z with 4294967296%Z. lia. }
  split; constructor; try (constructor; [|constructor]); cbn [typed]; auto; apply U; lia.
Qed.
Lemma px_entered mem f hs n : entered mem f hs px_args n ->
  exists q, hs = [HPtr q; HInt U32 7] /\ q + 20 <= fe_used f + n /\ mem_read mem q 20 = Some (repeat 5 20).
Proof.
  intros [D B]. inversion D as [|h0 p0 hs0 ps0 D1 D']; subst. inversion D' as [|h1 p1 hs1 ps1 D2 D'']; subst. inversion D''; subst.
  destruct h0 as [b|t z|m|q]; cbn [denotes] in D1; try discriminate D1. destruct D1 as (a & Ea & Rd).
  assert (repeat 5 20 = a) as <- by (unfold px_addr in Ea; congruence).
  destruct h1 as [b|t z|m|q1]; cbn [denotes] in D2; try discriminate D2; [|destruct D2 as (? & ? & _); discriminate].
  injection D2 as <- <-. inversion_clear B as [|? ? B1 _]. exists q. auto.
Qed.
Example C99_satisfiable :
  let en := px_engine px_types (Some px_rets) px_next in
  let cl := px_call px_args in
  has_code rx_env rx_state (cl_target cl) (rx_code 1) /\ compiled en (rx_code 1) (cl_func cl) px_types (Some px_rets) px_next
  /\ Forall2 prim_typed px_types px_args /\ encodes_args px_args (cl_input cl)
  /\ Forall (fun t => forall p, t <> YArray p 8) px_rets
  /\ answers rx_env px_next px_args (nlen (cl_input cl)) px_rets (fun vs => vs = px_results)
  /\ (exists r g', exec_call rx_env en cl rx_state = (Some r, g') /\ cr_success r = true)
  /\ returns rx_env px_next px_args (nlen (cl_input cl)) px_rets (0 + nlen (cl_input cl)) 300 rx_state
  /\ (0 + 2 * nlen (cl_input cl) <= 300)
  /\ leaves_returndata rx_env (fun _ => cret [])
  /\ compiled (px_engine px_types None (fun _ => cret [])) (rx_code 1) (cl_func cl) px_types None (fun _ => cret [])
  /\ (exists r g', exec_call rx_env (px_engine px_types None (fun _ => cret [])) cl rx_state = (Some r, g') /\ cr_success r = true)
  /\ (forall args c, next_tuple (map YPrim [YInt U32]) (calldata_new (px_input [PBool true])) <> Some (map RPrim args, c))
  /\ (exists r g', exec_call rx_env en (px_call [PBool true]) rx_state = (Some r, g')).
Proof.
  cbv zeta. destruct px_typed as [Tp Tr]. split; [exact px_code|]. split; [apply px_compiled|]. split; [exact Tp|]. split; [exact (px_encodes _ _ Tp)|].
  split; [repeat (constructor; [discriminate|]); constructor|]. split.
  { intros hs mem f g rs mem' f' g' D L E. destruct (px_entered _ _ _ _ D) as (q & -> & B & Rd). cbn [px_next cret run_wasm] in E. injection E as <- <- <- <-.
    exists px_results. split; [exact Tr|]. split; [repeat constructor; exists (repeat 5 20); auto|]. split; [|auto].
    change (nlen (cl_input (px_call px_args))) with 23 in B. change (tuple_max_byte_size px_rets) with 26.
    repeat constructor. cbn [below held_below]. lia. }
  split; [vm_compute; eauto|]. split.
  { intros hs mem f D Ln Hu Hm. destruct (px_entered _ _ _ _ D) as (q & -> & B & Rd). cbn [px_next cret run_wasm].
    eexists _, mem, f, rx_state. split; [reflexivity|]. split; [exact Hm|]. rewrite Hu, Ln. vm_compute. discriminate. }
  split; [vm_compute; discriminate|]. split.
  { intros hs mem f g rs mem' f' g' E. cbn [cret run_wasm] in E. congruence. }
  split; [apply px_compiled|]. split; [vm_compute; eauto|]. split; [vm_compute; discriminate|]. vm_compute. eauto.
Qed.
