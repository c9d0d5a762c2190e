(** C121: parameters of every type. *)
From Coq Require Import List NArith ZArith Bool Lia String.
From Coq Require Import ZifyBool ZifyNat ZifyN.
From Verif Require Import Base StorageModel SectionModel ReceiptModel Text GlobalModel RuntimeModel RuntimeSpec RuntimeProofs RuntimeProps.
From Verif Require Import SdkModel AbiModel AbiSpec AbiProofs TypedModel TypedProofs EndpointModel EndpointSpec EndpointProofs EndpointProps.
From Verif Require Import ParamModel ParamSpec ParamProofs.
Import ListNotations.
Open Scope list_scope.
Open Scope N_scope.

(** ** C121 A function gets its arguments, also units, options and arrays *)

(** As C99_call_partial, for parameters of every type that can be encoded.
    Missing: results that are arrays of eight elements (C41), more bytes of arguments than 22
    values take if there is an array among the parameters (see the refutation below), and returned
    addresses that stand where the answer is written. *)
Theorem C121_call_partial :
  forall e en cl g r g' code vl ts rts body args Q,
  vlayout_wf vl ->
  has_code e g (cl_target cl) code -> compiled_any vl en code (cl_func cl) ts (Some rts) body ->
  Forall2 typed ts args -> encodes_any args (cl_input cl) -> short vl ts (nlen (cl_input cl)) ->
  no_eights rts ->
  answers_any e body args (nlen (cl_input cl)) rts Q ->
  exec_call e en cl g = (Some r, g') -> cr_success r = true ->
  exists vs data, cr_returndata r = Some data /\ reads_back rts data vs /\ Q vs.
Proof.
  intros e en cl g r g' code vl ts rts body args Q W Hc Hx T Ein Sh N8 HA Ex Hs.
  destruct (success_any e en cl g r g' code vl ts (Some rts) body args W Hc Hx T Ein Sh Ex Hs) as (hs & mem & f & g1 & mem' & f' & g2 & D & L & _ & Em & Er).
  apply main_any_inv in Em as (rs & mem1 & f1 & g3 & Eb & Ee).
  destruct (HA hs mem f g1 rs mem1 f1 g3 D L Eb) as (vs & Tv & St & B & L1 & HQ).
  pose proof (proj1 (epilogue_run e rts vs rs mem1 f1 g3 Tv St B L1) mem' f' g2 Ee) as X.
  exists vs, (answer vs). split; [congruence|]. split; [|exact HQ]. unfold reads_back.
  assert (N8' : Forall (fun v => ~ array_of_eight (rust_value v)) vs).
  { clear -N8 Tv. induction Tv as [|t v ts vs T _ IH]; constructor; inversion_clear N8 as [|? ? N1 N2]; [|auto].
    intros X. destruct v as [|p|[p|]|l]; try contradiction X. destruct t as [| | |t n]; try contradiction T. destruct T as (En & _).
    apply (N1 t). f_equal. cbn in X. unfold nlen in *. rewrite map_length in X. lia. }
  pose proof (next_tuple_ok rts vs [] [] Tv N8') as Nx. rewrite app_nil_r in Nx. eexists. split; [exact Nx|]. apply next_end.
Qed.
Print Assumptions C121_call_partial.

(** Such a call completes if the body does, and if the contract's memory has room for twice the
    arguments, for the vectors of the arrays, and for twice the largest answer. *)
Theorem C121_completes_partial :
  forall e en i f name vl ts rts body args input mem g Q,
  vlayout_wf vl ->
  exports_alloc en i -> exports en i name (endpoint_any vl ts (Some rts) body) -> ts <> [] -> rts <> [] ->
  Forall2 typed ts args -> no_eights ts -> encodes_any args input -> short vl ts (nlen input) ->
  fe_memory f = true -> fe_returndata f = None ->
  fe_used f + 2 * nlen input <= nlen mem -> fe_used f + nlen input + reserved_all vl ts + 10 * vl_size vl <= nlen mem ->
  nlen mem < 2 ^ 32 ->
  answers_any e body args (nlen input) rts Q ->
  returns_any e body args (nlen input) rts (fe_used f + nlen input + reserved_all vl ts) (nlen mem) g ->
  exists mem' logs f' g' vs data, call_with_alloc e en i f name input mem g = (Ok (mem', [], i, logs, f'), g')
    /\ take_returndata f' mem' = Some data /\ Q vs /\ Forall2 typed rts vs
    /\ data = flat_map format (map rust_value vs).
Proof.
  intros e en i f name vl ts rts body args input mem g Q W Ha Hx Ne Nr T N1 Ein Sh Hm Hr R R' L HA HR.
  rewrite (encodes_answer ts args input T Ein) in *.
  destruct (enters_any e en i f name vl ts (Some rts) body args mem g W Ha Hx L T N1 Sh Ne Hm Hr R)
    as [(hs & mem1 & f1 & D & Ln & Hu & Hr1 & Hm1 & E)|[_ Lt]]; [|lia].
  destruct (HR hs mem1 f1 D Ln Hu Hm1) as (rs & mem2 & f2 & g2 & Eb & Hm2 & R2).
  destruct (HA hs mem1 f1 g rs mem2 f2 g2 D ltac:(lia) Eb) as (vs & Tv & St & B & L2 & HQ).
  destruct (epilogue_run e rts vs rs mem2 f2 g2 Tv St B L2) as [P1 P2]. destruct (P2 Nr Hm2 R2) as (mem3 & f3 & E3).
  exists mem3, (fe_logs f3), (with_logs [] f3), g2, vs, (answer vs). split.
  - rewrite E. unfold main_any, cbind. rewrite run_wbind, Eb, E3. reflexivity.
  - split; [|auto]. exact (P1 _ _ _ E3).
Qed.
Print Assumptions C121_completes_partial.

Theorem C121_no_result_partial :
  forall e en cl g r g' code vl ts body args,
  vlayout_wf vl ->
  has_code e g (cl_target cl) code -> compiled_any vl en code (cl_func cl) ts None body ->
  Forall2 typed ts args -> encodes_any args (cl_input cl) -> short vl ts (nlen (cl_input cl)) ->
  leaves_any e body ->
  exec_call e en cl g = (Some r, g') -> cr_success r = true -> cr_returndata r = Some [].
Proof.
  intros e en cl g r g' code vl ts body args W Hc Hx T Ein Sh HL Ex Hs.
  destruct (success_any e en cl g r g' code vl ts None body args W Hc Hx T Ein Sh Ex Hs) as (hs & mem & f & g1 & mem' & f' & g2 & D & L & Hr & Em & Er).
  apply main_any_inv in Em as (rs & mem1 & f1 & g3 & Eb & Ee). cbn [epilogue cret run_wasm] in Ee. injection Ee as <- <- <-.
  rewrite Er. unfold take_returndata. rewrite (HL _ _ _ _ _ _ _ _ Eb), Hr. reflexivity.
Qed.
Print Assumptions C121_no_result_partial.

(** Whatever the body: a call with bytes that do not begin with values of the parameters' types
    does not succeed.  Missing: more bytes than 22 values take. *)
Theorem C121_other_arguments_partial :
  forall e en cl g code vl ts ret body,
  vlayout_wf vl ->
  has_code e g (cl_target cl) code -> compiled_any vl en code (cl_func cl) ts ret body ->
  bytes_ok (cl_input cl) -> nlen (cl_input cl) <= 22 * vl_size vl ->
  (forall args c, next_tuple ts (calldata_new (cl_input cl)) <> Some (args, c)) ->
  forall r g', exec_call e en cl g = (Some r, g') -> cr_success r = false.
Proof.
  intros e en cl g code vl ts ret body W Hc (mem0 & i0 & Ei & L & Ha & Hx) B Sh Wr r g' Ex. destruct (cr_success r) eqn:Hs; [exfalso|reflexivity].
  destruct (success_steps e en cl g r g' code Hc Ex Hs) as (a & mem & i & f & g1 & mem2 & logs & f2 & g2 & E1 & (rets & i2 & E2) & Er).
  rewrite Ei in E1. cbn [run_wasm] in E1. injection E1 as <- <- <- <-.
  assert (Ne : ts <> []) by (intros ->; apply (Wr [] (calldata_new (cl_input cl))); reflexivity).
  destruct (0 <? nlen (cl_input cl)) eqn:C.
  - exact (refused_any e en i0 _ _ vl ts ret body _ _ _ W Ha Hx L Ne B Sh Wr _ _ E2).
  - rewrite (wasmer_exports e en i0 _ _ _ _ _ Hx) in E2. apply called_inv in E2 as (mem' & u & f' & E2 & _).
    unfold endpoint_any, cbind, prologue_any in E2. destruct ts; [easy|]. rewrite run_wbind in E2. unfold cbind, host in E2. cbn [wbind] in E2.
    cbn [run_wasm host_call] in E2. unfold sbind, ssome in E2. cbn [with_memory env_new fe_calldata spanic] in E2. discriminate E2.
Qed.
Print Assumptions C121_other_arguments_partial.

(** Nor does a call with an array of eight elements, although it can be encoded.  Missing: as above. *)
Theorem C121_eight_partial :
  forall e en cl g code vl ts ret body args,
  vlayout_wf vl ->
  has_code e g (cl_target cl) code -> compiled_any vl en code (cl_func cl) ts ret body ->
  Forall2 typed ts args -> ~ no_eights ts -> encodes_any args (cl_input cl) -> short vl ts (nlen (cl_input cl)) ->
  forall r g', exec_call e en cl g = (Some r, g') -> cr_success r = false.
Proof.
  intros e en cl g code vl ts ret body args W Hc Hx T N8 Ein Sh r g' Ex. destruct (cr_success r) eqn:Hs; [exfalso|reflexivity].
  apply N8. eapply success_no_eights; eauto.
Qed.
Print Assumptions C121_eight_partial.

(** A function that returns all its arguments, in order, returns the arguments of the call. *)
Theorem C121_echo_partial :
  forall e en cl g r g' code vl ts args,
  vlayout_wf vl ->
  has_code e g (cl_target cl) code -> compiled_any vl en code (cl_func cl) ts (Some ts) cret ->
  Forall2 typed ts args -> encodes_any args (cl_input cl) -> short vl ts (nlen (cl_input cl)) ->
  exec_call e en cl g = (Some r, g') -> cr_success r = true ->
  exists data, cr_returndata r = Some data /\ reads_back ts data args.
Proof.
  intros e en cl g r g' code vl ts args W Hc Hx T Ein Sh Ex Hs.
  pose proof (success_no_eights e en cl g r g' code vl ts _ _ args W Hc Hx T Ein Sh Ex Hs) as N1.
  assert (HA : answers_any e cret args (nlen (cl_input cl)) ts (fun vs => vs = args)).
  { intros hs mem f g0 rs mem' f' g1 [D B] L E. cbn [cret run_wasm] in E. injection E as <- <- <- <-. exists args. split; [exact T|].
    split; [exact D|]. split; [|auto]. eapply Forall_impl; [|exact B].
    pose proof (tuple_max _ _ T) as M. fold (answer args) in M. rewrite <- (encodes_answer ts args _ T Ein) in M.
    intros h. destruct h as [|y|[y|]|l]; cbn [below]; auto; try (destruct y; cbn [held_below]; lia). apply Forall_impl. intros y; destruct y; cbn [held_below]; lia. }
  destruct (C121_call_partial e en cl g r g' code vl ts ts cret args _ W Hc Hx T Ein Sh N1 HA Ex Hs) as (vs & data & Hd & Rb & ->).
  exists data. auto.
Qed.
Print Assumptions C121_echo_partial.

(** For primitive parameters this is what C99 says: from the same bytes both read the same
    arguments, and change neither the memory nor the host's state. *)
Theorem C121_primitive_parameters :
  forall e vl ts mem f g x g' p n,
  fe_calldata f = Some (p, n) -> p < 2 ^ 32 -> n < 2 ^ 32 -> bytes_ok mem ->
  run_wasm e (prologue_any vl (map YPrim ts) mem) f g = (Ok x, g') <->
  exists hs, run_wasm e (prologue ts mem) f g = (Ok (mem, hs, f), g) /\ x = (mem, map HVal hs, f) /\ g' = g.
Proof.
  intros e vl ts mem f g x g' p n Ec Lp Ln B. destruct ts as [|t ts].
  { unfold prologue_any, prologue. cbn [map cret run_wasm]. split; [intros [= <- <-]; exists []; auto|]. intros (hs & [= <-] & -> & ->). reflexivity. }
  assert (Ep : forall A (m : N -> N -> code A), run_wasm e ((let~ base := host HCalldataOffset in let~ len := host HCalldataLen in m base len) mem) f g = run_wasm e (m p n mem) f g).
  { intros A m. erewrite bind_ends; [|apply ends_host; cbn [host_call]; unfold sbind; rewrite Ec; cbn [ssome]; unfold sret; rewrite N.mod_small by exact Lp; reflexivity].
    erewrite bind_ends; [|apply ends_host; cbn [host_call]; unfold sbind; rewrite Ec; cbn [ssome]; unfold sret; rewrite N.mod_small by exact Ln; reflexivity]. reflexivity. }
  assert (Ecd : forall input, mem_read mem p n = Some input -> ends e node_calldata mem f g (p, input) mem f g).
  { intros input R. unfold ends, node_calldata. rewrite Ep. unfold mread, cbind. rewrite R. reflexivity. }
  unfold prologue_any. cbn [map]. rewrite Ep. change (YPrim t :: map YPrim ts) with (map YPrim (t :: ts)).
  destruct (mem_read mem p n) as [input|] eqn:R.
  - assert (Bi : bytes_ok input).
    { unfold mem_read in R. destruct (_ <=? _); [|discriminate R]. injection R as <-. unfold bytes_ok in *. apply Forall_forall. intros y Hy. rewrite Forall_forall in B. apply B.
      rewrite <- (firstn_skipn (N.to_nat p) mem). apply in_or_app. right. rewrite <- (firstn_skipn (N.to_nat n) (skipn _ mem)). apply in_or_app. left. exact Hy. }
    pose proof (prims_run e vl mem p n input R Bi (t :: ts) 0 f g) as A.
    assert (E : run_wasm e (prologue (t :: ts) mem) f g = run_wasm e (csome (read_args p (t :: ts) (mkCursor input 0)) mem) f g).
    { unfold prologue. rewrite (bind_ends e _ _ _ _ _ _ _ _ _ (Ecd input eq_refl)). reflexivity. }
    rewrite E. destruct (read_args p (t :: ts) (mkCursor input 0)) as [hs|].
    + unfold ends in A. rewrite A. split; [intros [= <- <-]; eexists; repeat split; reflexivity|]. intros (hs' & [= <-] & -> & ->). reflexivity.
    + split; [intros X; destruct (A _ _ X)|]. intros (hs' & X & _). discriminate X.
  - split.
    + intros X. cbn [map read_all] in X. apply bind_inv in X as ([h o] & m1 & f1 & g1 & X & _). unfold ends, read_arg in X.
      apply bind_inv in X as (c & m2 & f2 & g2 & X & _). unfold ends, cursor_at in X. apply bind_inv in X as (bs & m3 & f3 & g3 & X & _).
      unfold ends, mread in X. rewrite R in X. discriminate X.
    + intros (hs & X & _). unfold prologue in X. apply bind_inv in X as ([q bs] & m1 & f1 & g1 & X & _). unfold ends, node_calldata in X.
      rewrite Ep in X. apply bind_inv in X as (bs' & m3 & f3 & g3 & X & _). unfold ends, mread in X. rewrite R in X. discriminate X.
Qed.
Print Assumptions C121_primitive_parameters.

(** A world with one template: its function "f" has the given types and body. *)
Definition ax_engine (vl : vlayout) (size : nat) (ts : list aty) (ret : option (list aty)) (body : list hval -> code (list hval)) : engine :=
  mkEngine unit (fun _ => None) (fun _ => WReturn (repeat 0 size) tt) (fun _ => true)
    (fun _ name => if bytes_eqb name svm_alloc then Some SigAlloc else if bytes_eqb name (txt "f") then Some SigUnit else None)
    (fun _ name args mem =>
       if bytes_eqb name svm_alloc
       then wbind (generated_alloc (List.hd 0 args) mem) (fun p mem' => WReturn mem' ([p], tt))
       else wbind (endpoint_any vl ts ret body mem) (fun _ mem' => WReturn mem' ([], tt)))
    (fun _ => None) (fun _ => None).
Lemma ax_exports vl size ts ret body : exports_alloc (ax_engine vl size ts ret body) tt /\ exports (ax_engine vl size ts ret body) tt (txt "f") (endpoint_any vl ts ret body).
Proof. split; (split; [reflexivity|]); reflexivity. Qed.
Lemma ax_compiled vl size ts ret body : N.of_nat size < 2 ^ 32 -> compiled_any vl (ax_engine vl size ts ret body) (rx_code 1) (txt "f") ts ret body.
Proof.
  intros L. destruct (ax_exports vl size ts ret body) as [A B]. exists (repeat 0 size), tt. split; [reflexivity|].
  split; [unfold nlen; now rewrite repeat_length|]. split; [exact A|exact B].
Qed.
Definition ax_call (args : list rust) : call := mkCall (txt "f") (answer args) rx_a (rx_taddr 1) false FullAccess.
Lemma ax_encodes ts args : Forall2 typed ts args -> encodes_any args (answer args).
Proof.
  intros T. pose proof (appends_tuple _ _ T) as A. fold (answer args) in A.
  destruct (proj2 (appends_fits _ _ A (nlen (answer args))) ltac:(lia)) as [w Ew]. exists (nlen (answer args)), w. split; [exact Ew|].
  exact (appends_new _ _ A _ w Ew).
Qed.
(** A value of 16 bytes: a tag and the bytes of a number or a pointer, as on wasm32. *)
Definition ax_layout : vlayout :=
  mkVlayout 16 (fun q p => le_bytes 8 (match p with PInt _ _ => 5 | PBool _ => 2 | _ => 3 end)
                           ++ le_bytes 8 (match p with PInt _ z => Z.to_N z | PAmount n => n | PAddress _ => q + 1 | _ => 0 end)).
Lemma ax_layout_wf : vlayout_wf ax_layout.
Proof. split; [reflexivity|]. intros q p. unfold ax_layout, vl_bytes, vl_size, nlen. rewrite app_length, !le_bytes_length. reflexivity. Qed.

Lemma ax_addr n : n < 256 -> prim_typed YAddress (px_addr n).
Proof. intros L. split; [|eexists; reflexivity]. split; [|reflexivity]. apply Forall_forall. intros x I. apply repeat_spec in I. subst x. exact L. Qed.
Lemma ax_int z : (0 <= z < 100)%Z -> prim_typed (YInt U32) (PInt U32 z).
Proof. intros Hz. split; [|eexists; reflexivity]. cbn [prim_ok]. tables. cbn [ity_signed ity_bits]. change (2 ^ 32)%Z with 4294967296%Z. lia. Qed.

(** Without the bound on the bytes of the arguments this fails: the vector of the first array is
    written over an address that is still to be read. *)
Definition ax_long_types : list aty := YArray (YInt U32) 1 :: repeat (YPrim YAddress) 17.
Definition ax_long_args : list rust := RArray [PInt U32 7] :: repeat (RPrim (px_addr 9)) 17.
Definition ax_long_engine : engine := ax_engine ax_layout 2000 ax_long_types (Some ax_long_types) cret.
Lemma ax_long_compiled : compiled_any ax_layout ax_long_engine (rx_code 1) (txt "f") ax_long_types (Some ax_long_types) cret.
Proof. apply ax_compiled. vm_compute. reflexivity. Qed.
Lemma ax_long_typed : Forall2 typed ax_long_types ax_long_args.
Proof.
  constructor; [split; [reflexivity|]; split; [vm_compute; discriminate|]; constructor; [apply ax_int; lia|constructor]|].
  cbn [repeat]. repeat (constructor; [apply ax_addr; reflexivity|]). constructor.
Qed.
Definition ax_answer (o : option call_receipt) (check : bytes -> bool) : bool :=
  match o with Some r => cr_success r && match cr_returndata r with Some d => check d | None => false end | None => false end.
Lemma ax_answered (x : option call_receipt * gstate) check : ax_answer (fst x) check = true ->
  exists r g' d, x = (Some r, g') /\ cr_success r = true /\ cr_returndata r = Some d /\ check d = true.
Proof.
  intros E. destruct x as [[r|] g']; cbn [fst ax_answer] in E; [|discriminate E]. apply andb_true_iff in E as [E1 E2].
  destruct (cr_returndata r) as [d|] eqn:Ed; [|discriminate E2]. eauto 8.
Qed.
Definition ax_differs (d : bytes) : bool :=
  match next_tuple ax_long_types (calldata_new d) with
  | Some (vs, _) => match nth 17 vs RUnit with RPrim (PAddress a) => negb (bytes_eqb a (repeat 9 20)) | _ => false end
  | None => false
  end.
Lemma ax_long_run : ax_answer (fst (exec_call rx_env ax_long_engine (ax_call ax_long_args) rx_state)) ax_differs = true.
Proof. vm_compute. reflexivity. Qed.
Theorem C121_long_arguments_refuted :
  ~ (forall e en cl g r g' code vl ts args,
     vlayout_wf vl ->
     has_code e g (cl_target cl) code -> compiled_any vl en code (cl_func cl) ts (Some ts) cret ->
     Forall2 typed ts args -> no_eights ts -> encodes_any args (cl_input cl) ->
     exec_call e en cl g = (Some r, g') -> cr_success r = true ->
     exists data, cr_returndata r = Some data /\ reads_back ts data args).
Proof.
  intros H. destruct (ax_answered _ _ ax_long_run) as (r & g' & d & Ex & Hs & Hd' & X).
  assert (N8 : no_eights ax_long_types) by (constructor; [discriminate|]; apply Forall_forall; intros x I; apply repeat_spec in I; subst x; discriminate).
  destruct (H rx_env ax_long_engine (ax_call ax_long_args) rx_state r g' (rx_code 1) ax_layout ax_long_types ax_long_args ax_layout_wf px_code
    ax_long_compiled ax_long_typed N8 (ax_encodes _ _ ax_long_typed) Ex Hs) as (data & Hd & (c & Rb & _)).
  assert (data = d) as -> by congruence. unfold ax_differs in X. rewrite Rb in X. discriminate X.
Qed.
Print Assumptions C121_long_arguments_refuted.

(** The hypotheses are met by a function of an option, an array of two addresses, a unit and a
    number, that gives the number's successor, the array and the option. *)
Definition ax_body (hs : list hval) : code (list hval) :=
  match hs with [o; a; _; HVal (HInt U32 z)] => cret [HVal (HInt U32 (z + 1)); a; o] | _ => cpanic end.
Definition ax_types : list aty := [YOption YAddress; YArray YAddress 2; YUnit; YPrim (YInt U32)].
Definition ax_args : list rust := [ROption None; RArray [px_addr 5; px_addr 6]; RUnit; RPrim (PInt U32 7)].
Definition ax_rets : list aty := [YPrim (YInt U32); YArray YAddress 2; YOption YAddress].
Definition ax_results : list rust := [RPrim (PInt U32 8); RArray [px_addr 5; px_addr 6]; ROption None].
Lemma ax_typed : Forall2 typed ax_types ax_args /\ Forall2 typed ax_rets ax_results.
Proof.
  assert (A : typed (YArray YAddress 2) (RArray [px_addr 5; px_addr 6])).
  { split; [reflexivity|]. split; [vm_compute; discriminate|]. repeat (constructor; [apply ax_addr; reflexivity|]). constructor. }
  split; repeat (constructor; [first [exact A|exact I|apply ax_int; lia]|]); constructor.
Qed.
Lemma ax_entered mem f hs n : entered_any mem f hs ax_args n ->
  exists p q, hs = [HOpt None; HArr [HPtr p; HPtr q]; HUnit; HVal (HInt U32 7)] /\ p + 20 <= fe_used f + n /\ q + 20 <= fe_used f + n
    /\ mem_read mem p 20 = Some (repeat 5 20) /\ mem_read mem q 20 = Some (repeat 6 20).
Proof.
  intros [D B]. unfold ax_args in D. inversion D as [|h0 p0 hs0 ps0 D1 D']; subst. inversion D' as [|h1 p1 hs1 ps1 D2 D'']; subst.
  inversion D'' as [|h2 p2 hs2 ps2 D3 D3']; subst. inversion D3' as [|h3 p3 hs3 ps3 D4 D4']; subst. inversion D4'; subst.
  destruct h0 as [|y|[y|]|l]; cbn [stands] in D1; try contradiction D1.
  destruct h1 as [|y|[y|]|l]; cbn [stands] in D2; try contradiction D2.
  destruct h2 as [|y|[y|]|l2]; cbn [stands] in D3; try contradiction D3.
  destruct h3 as [|y|[y|]|l3]; cbn [stands] in D4; try contradiction D4.
  destruct y as [b|t z|m|q]; cbn [denotes] in D4; try discriminate D4; [|destruct D4 as (? & ? & _); discriminate]. injection D4 as <- <-.
  inversion D2 as [|a b as' bs E1 D5]; subst. inversion D5 as [|a2 b2 as2 bs2 E2 D6]; subst. inversion D6; subst.
  destruct a as [b|t z|m|q1]; cbn [denotes] in E1; try discriminate E1. destruct E1 as (x & Ex & Rx).
  destruct a2 as [b|t z|m|q2]; cbn [denotes] in E2; try discriminate E2. destruct E2 as (y & Ey & Ry).
  assert (repeat 5 20 = x) as <- by (unfold px_addr in Ex; congruence). assert (repeat 6 20 = y) as <- by (unfold px_addr in Ey; congruence).
  inversion_clear B as [|? ? _ B1]. inversion_clear B1 as [|? ? B2 _]. cbn [below] in B2. inversion_clear B2 as [|? ? B3 B4]. inversion_clear B4 as [|? ? B5 _].
  exists q1, q2. auto 6.
Qed.
Definition ax_world (ret : option (list aty)) (body : list hval -> code (list hval)) : engine := ax_engine ax_layout 2000 ax_types ret body.
Lemma ax_world_compiled ret body : compiled_any ax_layout (ax_world ret body) (rx_code 1) (txt "f") ax_types ret body.
Proof. apply ax_compiled. vm_compute. reflexivity. Qed.
Definition ax_same (vs : list rust) (d : bytes) : bool := bytes_eqb d (answer vs).
Lemma ax_run : ax_answer (fst (exec_call rx_env (ax_world (Some ax_rets) ax_body) (ax_call ax_args) rx_state)) (ax_same ax_results) = true.
Proof. vm_compute. reflexivity. Qed.
Lemma ax_run_none : ax_answer (fst (exec_call rx_env (ax_world None (fun _ => cret [])) (ax_call ax_args) rx_state)) (fun d => true) = true.
Proof. vm_compute. reflexivity. Qed.
Lemma ax_run_echo : ax_answer (fst (exec_call rx_env (ax_world (Some ax_types) cret) (ax_call ax_args) rx_state)) (ax_same ax_args) = true.
Proof. vm_compute. reflexivity. Qed.
Lemma ax_run_other : match fst (exec_call rx_env (ax_world (Some ax_types) cret) (ax_call [RArray [px_addr 5]]) rx_state) with Some _ => True | None => False end.
Proof. vm_compute. exact I. Qed.
Lemma ax_other args c : next_tuple ax_types (calldata_new (answer [RArray [px_addr 5]])) <> Some (args, c).
Proof. vm_compute. discriminate. Qed.
Example C121_satisfiable :
  vlayout_wf ax_layout /\ has_code rx_env rx_state (cl_target (ax_call ax_args)) (rx_code 1)
  /\ (forall ret body, compiled_any ax_layout (ax_world ret body) (rx_code 1) (cl_func (ax_call ax_args)) ax_types ret body)
  /\ Forall2 typed ax_types ax_args /\ no_eights ax_types /\ no_eights ax_rets
  /\ encodes_any ax_args (cl_input (ax_call ax_args)) /\ short ax_layout ax_types (nlen (cl_input (ax_call ax_args)))
  /\ answers_any rx_env ax_body ax_args (nlen (cl_input (ax_call ax_args))) ax_rets (fun vs => vs = ax_results)
  /\ returns_any rx_env ax_body ax_args (nlen (cl_input (ax_call ax_args))) ax_rets
       (0 + nlen (cl_input (ax_call ax_args)) + reserved_all ax_layout ax_types) 2000 rx_state
  /\ 0 + 2 * nlen (cl_input (ax_call ax_args)) <= 2000
  /\ 0 + nlen (cl_input (ax_call ax_args)) + reserved_all ax_layout ax_types + 10 * vl_size ax_layout <= 2000
  /\ leaves_any rx_env (fun _ => cret [])
  /\ (exists r g', exec_call rx_env (ax_world (Some ax_rets) ax_body) (ax_call ax_args) rx_state = (Some r, g') /\ cr_success r = true)
  /\ (exists r g', exec_call rx_env (ax_world None (fun _ => cret [])) (ax_call ax_args) rx_state = (Some r, g') /\ cr_success r = true)
  /\ (exists r g', exec_call rx_env (ax_world (Some ax_types) cret) (ax_call ax_args) rx_state = (Some r, g') /\ cr_success r = true)
  /\ (forall args c, next_tuple ax_types (calldata_new (cl_input (ax_call [RArray [px_addr 5]]))) <> Some (args, c))
  /\ (exists r g', exec_call rx_env (ax_world (Some ax_types) cret) (ax_call [RArray [px_addr 5]]) rx_state = (Some r, g')).
Proof.
  destruct ax_typed as [Tp Tr]. split; [exact ax_layout_wf|]. split; [exact px_code|]. split; [apply ax_world_compiled|]. split; [exact Tp|].
  split; [repeat (constructor; [discriminate|]); constructor|]. split; [repeat (constructor; [discriminate|]); constructor|].
  split; [exact (ax_encodes _ _ Tp)|]. split; [left; vm_compute; discriminate|].
  assert (En : nlen (cl_input (ax_call ax_args)) = 47) by reflexivity.
  split.
  { intros hs mem f g rs mem' f' g' D L E. destruct (ax_entered _ _ _ _ D) as (p & q & -> & B1 & B2 & R1 & R2). cbn [ax_body cret run_wasm] in E. injection E as <- <- <- <-.
    exists ax_results. split; [exact Tr|]. split; [|split; [|auto]].
    - constructor; [reflexivity|]. constructor; [|constructor; [exact I|constructor]]. constructor; [exists (repeat 5 20); auto|]. constructor; [exists (repeat 6 20); auto|constructor].
    - rewrite En in *. change (tuple_max_byte_size ax_rets) with 69. constructor; [exact I|]. constructor; [|constructor; [exact I|constructor]].
      cbn [below]. constructor; [cbn [held_below]; lia|]. constructor; [cbn [held_below]; lia|constructor]. }
  split.
  { intros hs mem f D Ln Hu Hm. destruct (ax_entered _ _ _ _ D) as (p & q & -> & _). cbn [ax_body cret run_wasm].
    eexists _, mem, f, rx_state. split; [reflexivity|]. split; [exact Hm|]. rewrite Hu, Ln. vm_compute. discriminate. }
  split; [vm_compute; discriminate|]. split; [vm_compute; discriminate|]. split.
  { intros hs mem f g rs mem' f' g' E. cbn [cret run_wasm] in E. congruence. }
  split; [destruct (ax_answered _ _ ax_run) as (r & g' & d & H); exists r, g'; tauto|].
  split; [destruct (ax_answered _ _ ax_run_none) as (r & g' & d & H); exists r, g'; tauto|].
  split; [destruct (ax_answered _ _ ax_run_echo) as (r & g' & d & H); exists r, g'; tauto|].
  split; [exact ax_other|]. pose proof ax_run_other as X. destruct (exec_call _ _ _ _) as [[r|] g']; [eauto|destruct X].
Qed.
(** And those of C121_eight_partial by a function of an array of eight. *)
Definition ax_eight_types : list aty := [YArray YBool 8].
Definition ax_eight_args : list rust := [RArray (repeat (PBool true) 8)].
Example C121_eight_satisfiable :
  compiled_any ax_layout (ax_engine ax_layout 2000 ax_eight_types None (fun _ => cret [])) (rx_code 1) (cl_func (ax_call ax_eight_args)) ax_eight_types None (fun _ => cret [])
  /\ has_code rx_env rx_state (cl_target (ax_call ax_eight_args)) (rx_code 1)
  /\ Forall2 typed ax_eight_types ax_eight_args /\ ~ no_eights ax_eight_types
  /\ encodes_any ax_eight_args (cl_input (ax_call ax_eight_args)) /\ short ax_layout ax_eight_types (nlen (cl_input (ax_call ax_eight_args)))
  /\ (exists r g', exec_call rx_env (ax_engine ax_layout 2000 ax_eight_types None (fun _ => cret [])) (ax_call ax_eight_args) rx_state = (Some r, g')).
Proof.
  assert (T : Forall2 typed ax_eight_types ax_eight_args).
  { constructor; [|constructor]. split; [reflexivity|]. split; [vm_compute; discriminate|]. apply Forall_forall. intros x Hx. apply repeat_spec in Hx. subst x.
    split; [exact I|eexists; reflexivity]. }
  split; [apply ax_compiled; vm_compute; reflexivity|]. split; [exact px_code|]. split; [exact T|].
  split; [intros F; inversion_clear F as [|? ? F1 _]; exact (F1 YBool eq_refl)|]. split; [exact (ax_encodes _ _ T)|]. split; [left; vm_compute; discriminate|].
  assert (X : match fst (exec_call rx_env (ax_engine ax_layout 2000 ax_eight_types None (fun _ => cret [])) (ax_call ax_eight_args) rx_state) with Some _ => True | None => False end)
    by (vm_compute; exact I).
  destruct (exec_call _ _ _ _) as [[r|] g']; [eauto|destruct X].
Qed.
