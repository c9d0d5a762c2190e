(** Proofs about what receipts report of a contract's host calls. *)
From Coq Require Import List NArith ZArith Bool Lia.
From Coq Require Import ZifyBool ZifyNat ZifyN.
From Verif Require Import Base CodecModel CodecSpec CodecProofs ReceiptModel ReceiptProofs LayoutModel SectionModel.
From Verif Require Import SectionSpec SectionProofs SectionCanon StorageModel StorageSpec StorageProofs GlobalModel GlobalSpec GlobalProofs.
From Verif Require Import RuntimeModel RuntimeSpec RuntimeProofs ObserveSpec.
Import ListNotations.
Open Scope N_scope.

Lemma mem_read_slice mem off len v : mem_read mem off len = Some v -> v = slice mem off len.
Proof. unfold mem_read, slice. destruct (_ <=? _); [|discriminate]. now intros [= <-]. Qed.

Definition region_step (r : option (N * N)) (c : event) : option (N * N) :=
  match c with (HSetReturndata off len, _) => Some (off, len) | _ => r end.
Definition region_from (r : option (N * N)) (h : list event) : option (N * N) := fold_left region_step h r.

Lemma region_from_eq h : region_from None h = region_of h.
Proof. reflexivity. Qed.
Lemma region_from_app r h1 h2 : region_from r (h1 ++ h2) = region_from (region_from r h1) h2.
Proof. apply fold_left_app. Qed.

Lemma parties_of_app h1 h2 : parties_of (h1 ++ h2) = parties_of h1 ++ parties_of h2.
Proof. apply flat_map_app. Qed.
Lemma parties_of_cons c h : parties_of (c :: h) = parties_of [c] ++ parties_of h.
Proof. unfold parties_of. cbn [flat_map]. now rewrite app_nil_r. Qed.
Lemma logs_of_cons c h : logs_of (c :: h) = logs_of [c] ++ logs_of h.
Proof. unfold logs_of. cbn [flat_map]. now rewrite app_nil_r. Qed.

(** What one host call, or a history of them, does to the environment. *)
Record tracked (f f' : func_env) (h : list event) : Prop := mkTracked {
  tk_logs : fe_logs f' = fe_logs f ++ logs_of h;
  tk_region : fe_returndata f' = region_from (fe_returndata f) h;
  tk_touched : forall x, In x (fe_touched f') <-> In x (fe_touched f) \/ In x (parties_of h);
  tk_memory : fe_memory f' = fe_memory f;
  tk_mode : fe_mode f' = fe_mode f;
  tk_account : fe_account f' = fe_account f;
  tk_template : fe_template f' = fe_template f;
  tk_no_memory : fe_memory f = false -> logs_of h = [] /\ parties_of h = [];
  tk_denied : fe_mode f = AccessDenied -> parties_of h = []
}.

Lemma tracked_nil f : tracked f f [].
Proof. split; auto; [now rewrite app_nil_r|]. cbn. tauto. Qed.

Lemma tracked_trans f1 f2 f3 c h : tracked f1 f2 [c] -> tracked f2 f3 h -> tracked f1 f3 (c :: h).
Proof.
  intros A B. split.
  - now rewrite (tk_logs _ _ _ B), (tk_logs _ _ _ A), (logs_of_cons c h), app_assoc.
  - rewrite (tk_region _ _ _ B), (tk_region _ _ _ A). reflexivity.
  - intros x. rewrite (tk_touched _ _ _ B), (tk_touched _ _ _ A), (parties_of_cons c h), in_app_iff. tauto.
  - now rewrite (tk_memory _ _ _ B), (tk_memory _ _ _ A).
  - now rewrite (tk_mode _ _ _ B), (tk_mode _ _ _ A).
  - now rewrite (tk_account _ _ _ B), (tk_account _ _ _ A).
  - now rewrite (tk_template _ _ _ B), (tk_template _ _ _ A).
  - intros H. destruct (tk_no_memory _ _ _ A H) as [A1 A2].
    destruct (tk_no_memory _ _ _ B) as [B1 B2]; [now rewrite (tk_memory _ _ _ A)|].
    now rewrite (logs_of_cons c h), (parties_of_cons c h), A1, A2, B1, B2.
  - intros H. rewrite (parties_of_cons c h), (tk_denied _ _ _ A H).
    apply (tk_denied _ _ _ B). now rewrite (tk_mode _ _ _ A).
Qed.

(** Destruct the monadic steps of a host call. *)
Lemma sbind_ok {E A B} (m : sm E A) (k : A -> sm E B) g b g' :
  sbind m k g = (Ok b, g') -> exists a g1, m g = (Ok a, g1) /\ k a g1 = (Ok b, g').
Proof. unfold sbind. destruct (m g) as [[a|?|] g1]; try discriminate. eauto. Qed.
Lemma sassert_ok {E} b g (u : unit) g' : @sassert E b g = (Ok u, g') -> b = true /\ g' = g.
Proof. destruct b; cbn; [intros [= <-]; auto|discriminate]. Qed.
Lemma ssome_ok {E A} (o : option A) g a g' : @ssome E A o g = (Ok a, g') -> o = Some a /\ g' = g.
Proof. destruct o; cbn; [intros [= <- <-]; auto|discriminate]. Qed.

Lemma host_call_tracked e f mem c g v mem' f' g' :
  host_call e f mem c g = (Ok (v, mem', f'), g') -> tracked f f' [(c, mem)].
Proof.
  assert (K : tracked f f' [] -> logs_of [(c, mem)] = [] -> parties_of [(c, mem)] = [] ->
              (forall r, region_step r (c, mem) = r) -> tracked f f' [(c, mem)]).
  { intros A L P R. split; try apply A.
    - rewrite L. apply A.
    - change (fe_returndata f' = region_step (fe_returndata f) (c, mem)). rewrite R. apply A.
    - intros x. rewrite P. apply A.
    - intros _. now split.
    - auto. }
  destruct c; cbn [host_call];
    repeat match goal with
    | |- (if ?b then _ else _) _ = _ -> _ => destruct b eqn:?; [|try discriminate]
    end;
    intros H;
    repeat match goal with
    | H : sbind _ _ _ = (Ok _, _) |- _ => apply sbind_ok in H as (? & ? & ? & H)
    | H : sassert _ _ = (Ok _, _) |- _ => apply sassert_ok in H as [? ->]
    | H : ssome _ _ = (Ok _, _) |- _ => apply ssome_ok in H as [? ->]
    | H : (if ?b then _ else _) _ = (Ok _, _) |- _ => destruct b eqn:?
    | H : spanic _ = _ |- _ => discriminate H
    | H : (let (_, _) := ?p in _) _ = _ |- _ => destruct p
    end; try discriminate;
    try (injection H as <- <- <- <-);
    try (apply K; [apply tracked_nil|reflexivity|reflexivity|reflexivity]; fail).
  - apply K; try reflexivity. split; try reflexivity; cbn; auto; [now rewrite app_nil_r|tauto].
  - split; try reflexivity; cbn; auto; [now rewrite app_nil_r|tauto].
  - match goal with M : mem_read _ _ _ = _ |- _ => apply mem_read_slice in M; subst end.
    split; try reflexivity; cbn; auto; [tauto|]. intros E. rewrite E in *. discriminate.
  - apply K; [apply tracked_nil|reflexivity| |reflexivity]. unfold parties_of. cbn [flat_map].
    match goal with E : (_ =? 0) = true |- _ => rewrite E end. reflexivity.
  - match goal with M : mem_read mem src _ = _, M' : mem_read mem dst _ = _ |- _ =>
      apply mem_read_slice in M; apply mem_read_slice in M'; subst end.
    assert (P : parties_of [(HTransfer src dst amount, mem)] = [slice mem src 20; slice mem dst 20]).
    { unfold parties_of. cbn [flat_map]. match goal with E : (_ =? 0) = false |- _ => rewrite E end. reflexivity. }
    split; try reflexivity.
    + cbn. now rewrite app_nil_r.
    + intros z. rewrite P. cbn [touch fe_touched]. rewrite !set_insert_in. cbn [In]. split; intuition congruence.
    + intros E. congruence.
    + intros E. unfold can_read in *. rewrite E in *. discriminate.
Qed.

Lemma run_wasm_tracked {R} e (t : wasm R) : forall f g,
  match run_wasm e t f g with
  | (Ok (_, _, f'), _) => tracked f f' (events e t f g)
  | (Err (_, f'), _) => tracked f f' (events e t f g)
  | (Panic, _) => True
  end.
Proof.
  induction t as [mem r|msg|mem c k IH]; intros f g; cbn [run_wasm events]; try apply tracked_nil.
  destruct (host_call e f mem c g) as [[[[v mem'] f1]|er|] g1] eqn:E; auto.
  apply host_call_tracked in E. specialize (IH v mem' f1 g1).
  destruct (run_wasm e (k v mem') f1 g1) as [[[[? ?] f2]|[? f2]|] g2]; auto; eapply tracked_trans; eauto.
Qed.

(* ------------------------------------------------------------------------------------ *)
(** * The receipt of an execution *)

(** What the outcome of [run] has to do with the session. *)
Definition reported (f : func_env) (s : session) (r : outcome failure (bytes * list bytes * func_env)) : Prop :=
  match r with
  | Ok (mem, logs, f') =>
      ss_end s = Returned mem /\ logs = logs_of (ss_main s)
      /\ fe_returndata f' = region_of (ss_start s ++ ss_main s)
      /\ region_of (ss_alloc s) = None
      /\ (forall x, In x (fe_touched f') <-> In x (fe_touched f) \/ In x (parties_of (ss_main s)))
      /\ logs_of (ss_start s) = [] /\ parties_of (ss_start s) = [] /\ parties_of (ss_alloc s) = []
  | Err (er, logs) =>
      exists msg, ss_end s = Trapped msg /\ logs = logs_of (ss_main s)
      /\ logs_of (ss_start s) = [] /\ parties_of (ss_start s) = [] /\ parties_of (ss_alloc s) = []
  | Panic => False
  end.

Definition reaches_main (name : bytes) (r : outcome failure (bytes * list bytes * func_env)) : Prop :=
  match r with
  | Ok _ => True
  | Err (FuncFailed _ _ n _, _) => n = name
  | _ => False
  end.

Lemma run_session e en cl l a g r g' c :
  code_of l = Some c -> cl_mode cl = FullAccess ->
  run e en cl l (env_new a (cl_template cl) (cl_mode cl)) g = (r, g') -> reaches_main (cl_func cl) r ->
  exists s, session_of e en a (cl_template cl) (cs_code c) (cl_func cl) (cl_input cl) FullAccess g = Some s
  /\ reported (env_new a (cl_template cl) FullAccess) s r.
Proof.
  intros Hc Hm. rewrite Hm. unfold run, sbind at 1. set (f0 := env_new a (cl_template cl) FullAccess).
  pose proof (validate_func_usage_reads cl l f0 g) as RV.
  destruct (validate_func_usage cl l f0 g) as [[[]|er|] g0] eqn:EV; cbn [snd] in RV; subst g0.
  2:{ intros [= <- <-]. unfold validate_func_usage, ensure_ctor, sbind in EV.
      destruct (cl_within_spawn cl), (is_ctor l (cl_func cl)) as [[]|]; cbn in EV; try discriminate EV;
        injection EV as <-; intros []. }
  2:{ intros [= <- <-] []. }
  unfold sbind at 1, instantiate, sbind at 1. rewrite Hc. cbn [ssome]. unfold sret at 1.
  destruct (en_compile en (cs_code c)); [intros [= <- <-] []|].
  pose proof (run_wasm_tracked e (en_instantiate en (cs_code c)) f0 g) as T0. unfold session_of. fold f0.
  destruct (run_wasm e (en_instantiate en (cs_code c)) f0 g) as [[[[mem i] f1]|[msg f1]|] g1];
    [|intros [= <- <-] []|intros [= <- <-] []].
  unfold sbind at 1. destruct (en_has_memory en i); cbn [sassert]; [|intros [= <- <-] []]. unfold sret at 1.
  set (h0 := events e (en_instantiate en (cs_code c)) f0 g) in *.
  destruct (tk_no_memory _ _ _ T0 eq_refl) as [L0 P0].
  set (f2 := with_memory f1).
  destruct (func en i f2 (cl_func cl) SigUnit) as [fl|] eqn:EF.
  { intros [= <- <-]. unfold func in EF. destruct (en_func en i (cl_func cl)) as [[]|]; try discriminate EF; injection EF as <-; intros []. }
  unfold sbind at 1.
  destruct (cl_input cl) as [|x0 xs] eqn:Ein.
  - change (0 <? nlen (@nil N)) with false. cbv iota. unfold wasmer_call.
    set (main := en_call en i (cl_func cl) [] mem).
    pose proof (run_wasm_tracked e main f2 g1) as T1.
    destruct (run_wasm e main f2 g1) as [[[[mem' [rets i']] f']|[msg f']|] g2]; cbn [fst ending_of option_map];
      intros [= <- <-] HR; [| |destruct HR]; (eexists; split; [reflexivity|]); cbn [reported ss_end ss_main ss_start ss_alloc].
    + split; [reflexivity|]. split.
      { rewrite (tk_logs _ _ _ T1). cbn [f2 with_memory fe_logs]. rewrite (tk_logs _ _ _ T0), L0. reflexivity. }
      split; [|split; [reflexivity|split; [|now repeat split]]].
      * cbn [with_logs fe_returndata]. rewrite (tk_region _ _ _ T1). cbn [f2 with_memory fe_returndata].
        rewrite (tk_region _ _ _ T0). symmetry. apply region_from_app.
      * intros x. cbn [with_logs fe_touched]. rewrite (tk_touched _ _ _ T1). cbn [f2 with_memory fe_touched].
        rewrite (tk_touched _ _ _ T0), P0. cbn [In]. tauto.
    + exists msg. split; [reflexivity|]. split; [|now repeat split].
      rewrite (tk_logs _ _ _ T1). cbn [f2 with_memory fe_logs]. rewrite (tk_logs _ _ _ T0), L0. reflexivity.
  - rewrite <- Ein. assert (Hlen : (0 <? nlen (cl_input cl)) = true) by (rewrite Ein, nlen_cons; lia). rewrite Hlen.
    unfold call_with_alloc.
    destruct (func en i f2 svm_alloc SigAlloc) as [fl|] eqn:EA; [intros [= <- <-] []|].
    assert (Hne : cl_func cl <> svm_alloc).
    { intros E. rewrite E in EF. unfold func in EA, EF. destruct (en_func en i svm_alloc) as [[]|]; discriminate. }
    unfold sbind at 1. unfold wasmer_call at 1. set (fa := with_mode AccessDenied f2).
    set (alloc := en_call en i svm_alloc [nlen (cl_input cl)] mem).
    pose proof (run_wasm_tracked e alloc fa g1) as T1.
    destruct (run_wasm e alloc fa g1) as [[[[mem1 [rets i1]] f3]|[msg f3]|] g2].
    2:{ intros [= <- <-] HR. cbn [reaches_main] in HR. congruence. }
    2:{ intros [= <- <-] []. }
    set (h1 := events e alloc fa g1) in *.
    destruct rets as [|offset rets]; cbn [nth_error ssome]; [intros [= <- <-] []|].
    unfold sbind at 1, sret at 1. unfold sbind at 1.
    pose proof (tk_denied _ _ _ T1 eq_refl) as P1.
    destruct (fe_returndata (with_mode (fe_mode f2) (with_logs [] f3))) eqn:ER; cbn [sassert]; [intros [= <- <-] []|].
    unfold sret at 1. unfold sbind at 1.
    destruct (mem_write mem1 offset (cl_input cl)) as [mem2|] eqn:Ew; cbn [ssome]; [|intros [= <- <-] []]. unfold sret at 1.
    assert (M2 : fe_mode f2 = FullAccess) by (cbn [f2 with_memory fe_mode]; rewrite (tk_mode _ _ _ T0); reflexivity).
    rewrite M2. unfold wasmer_call.
    set (main := en_call en i1 (cl_func cl) [] mem2).
    set (f4 := with_calldata (offset, nlen (cl_input cl)) (with_mode FullAccess (with_logs [] f3))).
    pose proof (run_wasm_tracked e main f4 g2) as T2.
    cbn [with_mode with_logs fe_returndata] in ER.
    assert (R1 : region_from (region_of h0) h1 = None).
    { rewrite <- ER, (tk_region _ _ _ T1). cbn [fa f2 with_mode with_memory fe_returndata].
      rewrite (tk_region _ _ _ T0). reflexivity. }
    assert (NS : forall h r, region_from r h = None -> r = None).
    { induction h as [|[cc mm] h IH]; intros r0; [auto|]. cbn [region_from fold_left]. intros H. apply IH in H.
      destruct cc; cbn in H; congruence. }
    pose proof (NS _ _ R1) as R0. rewrite R0 in R1.
    destruct (run_wasm e main f4 g2) as [[[[mem' [rets' i']] f']|[msg f']|] g3]; cbn [fst ending_of option_map];
      intros [= <- <-] HR; [| |destruct HR]; (eexists; split; [reflexivity|]); cbn [reported ss_end ss_main ss_start ss_alloc].
    + split; [reflexivity|]. split.
      { rewrite (tk_logs _ _ _ T2). reflexivity. }
      split; [|split; [exact R1|split; [|now repeat split]]].
      * cbn [with_logs fe_returndata]. rewrite (tk_region _ _ _ T2). cbn [f4 with_calldata with_mode with_logs fe_returndata].
        rewrite ER. change (region_of (h0 ++ events e main f4 g2)) with (region_from None (h0 ++ events e main f4 g2)).
        rewrite region_from_app. change (region_from None h0) with (region_of h0). now rewrite R0.
      * intros x. cbn [with_logs fe_touched]. rewrite (tk_touched _ _ _ T2). cbn [f4 with_calldata with_mode with_logs fe_touched].
        rewrite (tk_touched _ _ _ T1), P1. cbn [fa f2 with_mode with_memory fe_touched].
        rewrite (tk_touched _ _ _ T0), P0. cbn [In]. tauto.
    + exists msg. split; [reflexivity|]. split; [|now repeat split].
      rewrite (tk_logs _ _ _ T2). reflexivity.
Qed.

Lemma take_returndata_eq f s mem data : ss_end s = Returned mem ->
  fe_returndata f = region_of (ss_start s ++ ss_main s) -> take_returndata f mem = Some data -> data = returned s.
Proof.
  intros E R. unfold take_returndata, returned. rewrite E, R. destruct (region_of _) as [[off len]|]; [|now intros [= <-]].
  destruct (0 <? len); [|discriminate]. apply mem_read_slice.
Qed.

Lemma exec_call_session e en cl g rc g' :
  cl_mode cl = FullAccess -> fst (account_template e (cl_target cl) g) = Ok (cl_template cl) ->
  exec_call e en cl g = (Some rc, g') -> function_ran (cl_func cl) (cr_success rc) (cr_error rc) ->
  exists s, runs_as e en (cl_target cl) (cl_func cl) (cl_input cl) g s
    /\ cr_logs rc = logs_of (ss_main s)
    /\ logs_of (ss_start s) = [] /\ parties_of (ss_start s) = [] /\ parties_of (ss_alloc s) = []
    /\ (cr_success rc = true ->
          (exists mem, ss_end s = Returned mem)
          /\ cr_returndata rc = Some (returned s) /\ region_of (ss_alloc s) = None
          /\ forall x, In x (cr_touched rc) <-> x = cl_target cl \/ In x (parties_of (ss_main s)))
    /\ (cr_success rc = false -> exists msg, ss_end s = Trapped msg).
Proof.
  intros Hm Ht. unfold exec_call. destruct (exec e en cl g) as [o g0] eqn:E. unfold exec, load_template in E.
  unfold sbind at 1 in E.
  destruct (@unwrap_read failure _ (account_load e (cl_target cl)) g (reads_load e _)) as [(a1 & E1 & R1)|[E1 R1]]; rewrite R1 in E.
  2:{ injection E as <- <-. discriminate. }
  unfold sbind at 1 in E.
  destruct (@unwrap_read failure _ (account_template e (cl_target cl)) g) as [(t & E2 & R2)|[E2 R2]];
    [apply reads_bind; [apply reads_decode|intros; apply reads_ret]|rewrite R2 in E|rewrite R2 in E].
  2:{ injection E as <- <-. discriminate. }
  assert (t = cl_template cl) by congruence. subst t.
  unfold sbind at 1 in E.
  destruct (@unwrap_read failure _ (template_sections e (cl_template cl)) g (reads_sections e _)) as [(l & E3 & R3)|[E3 R3]]; rewrite R3 in E.
  2:{ injection E as <- <-. discriminate. }
  unfold sbind at 1 in E. rewrite R1 in E. unfold sbind at 1 in E.
  destruct (run e en cl l (env_new a1 (cl_template cl) (cl_mode cl)) g) as [r g1] eqn:Er.
  assert (Hc : reaches_main (cl_func cl) r -> exists c, code_of l = Some c).
  { intros HR. unfold run, sbind at 1 in Er. destruct (validate_func_usage _ _ _ g) as [[[]|er|] gx] eqn:EV.
    - unfold sbind at 1, instantiate, sbind at 1 in Er. destruct (code_of l) as [c|]; [eauto|].
      injection Er as <- <-. destruct HR.
    - injection Er as <- <-. unfold validate_func_usage, ensure_ctor, sbind in EV.
      destruct (cl_within_spawn cl), (is_ctor l (cl_func cl)) as [[]|]; cbn in EV; try discriminate EV;
        injection EV as <- _; destruct HR.
    - injection Er as <- <-. destruct HR. }
  assert (K : reaches_main (cl_func cl) r -> exists s, runs_as e en (cl_target cl) (cl_func cl) (cl_input cl) g s
                /\ reported (env_new a1 (cl_template cl) FullAccess) s r).
  { intros HR. destruct (Hc HR) as [c Ec]. destruct (run_session e en cl l a1 g r g1 c Ec Hm Er HR) as (s & S1 & S2).
    exists s. split; [|exact S2]. exists a1, (cl_template cl), l, c. auto 6. }
  destruct r as [[[mem logs] f]|[er lg]|].
  3:{ injection E as <- <-. discriminate. }
  - destruct (K Logic.I) as (s & S1 & K1 & K2 & K3 & K4 & K5 & K6 & K7 & K8).
    unfold outcome_to_receipt in E. unfold sbind at 1 in E.
    destruct (take_returndata f mem) as [data|] eqn:ET; cbn [ssome] in E.
    2:{ injection E as <- <-. discriminate. }
    unfold sret at 1 in E. unfold sbind at 1 in E.
    destruct (commit_changes e f g1) as [[st|[er lg]|] g2] eqn:EC.
    3:{ injection E as <- <-. discriminate. }
    2:{ exfalso. clear -EC. unfold commit_changes, sbind, sunwrap in EC. destruct (can_write f); cbn [sassert sret spanic] in EC; [|discriminate].
        destruct (gs_checkpoint e g1) as [[[]|?|] g3]; try discriminate. destruct (gs_commit e g3) as [[[? ?]|?|] g4]; discriminate. }
    injection E as <- <-. intros [= <- <-] _. exists s. cbn [cr_logs cr_success cr_returndata cr_touched].
    split; [exact S1|]. split; [exact K2|]. split; [exact K6|]. split; [exact K7|]. split; [exact K8|]. split; [|discriminate].
    intros _. split; [eauto|]. split; [f_equal; eapply take_returndata_eq; eauto|]. split; [exact K4|].
    intros x. rewrite K5. cbn [env_new fe_touched In]. rewrite (load_addr _ _ _ _ E1). intuition congruence.
  - injection E as <- <-. intros [= <- <-]. cbn [call_from_err cr_success cr_error cr_logs]. intros [H|(a & t & msg & H)]; [discriminate|].
    apply Some_inj in H. subst er. destruct (K eq_refl) as (s & S1 & msg' & K1 & K2 & K3 & K4 & K5).
    exists s. split; [exact S1|]. split; [exact K2|]. split; [exact K3|]. split; [exact K4|]. split; [exact K5|].
    split; [discriminate|eauto].
Qed.

Lemma call_session e en m tx g rc g' :
  decoded dec_transaction m = Some tx -> rt_call e en m g = (Some rc, g') ->
  function_ran (tx_func_name tx) (cr_success rc) (cr_error rc) ->
  exists s, runs_as e en (tx_target tx) (tx_func_name tx) (tx_calldata tx) g s
    /\ cr_logs rc = logs_of (ss_main s)
    /\ logs_of (ss_start s) = [] /\ parties_of (ss_start s) = [] /\ parties_of (ss_alloc s) = []
    /\ (cr_success rc = true ->
          (exists mem, ss_end s = Returned mem)
          /\ cr_returndata rc = Some (returned s) /\ region_of (ss_alloc s) = None
          /\ forall x, In x (cr_touched rc) <-> x = tx_target tx \/ In x (parties_of (ss_main s)))
    /\ (cr_success rc = false -> exists msg, ss_end s = Trapped msg).
Proof.
  intros Ed. unfold rt_call. rewrite Ed. unfold transact.
  destruct (build_call_reads e tx FullAccess (tx_func_name tx) (tx_calldata tx) g) as [(cl & -> & Em & En & Et & Ei & _ & Ea)| ->];
    [|discriminate].
  intros H HF. rewrite <- En in HF. rewrite <- Et in Ea. pose proof (exec_call_session e en cl g rc g' Em Ea H HF) as K.
  now rewrite En, Et, Ei in K.
Qed.

Lemma spawn_session e en ev m c g sp rc c' g' : iterates e -> collision_free e -> hash_wf e -> live e g -> bytes_ok m ->
  decoded dec_spawn m = Some sp -> spawn e en ev m c g = (Some rc, c', g') ->
  function_ran (sp_ctor sp) (sr_success rc) (sr_error rc) ->
  let new := account_addr e (sp_template sp) in
  exists a g1 s, account_create e new (sp_name sp) (sp_template sp) 0 0 g = (Ok a, g1)
    /\ runs_as e en new (sp_ctor sp) (sp_calldata sp) g1 s
    /\ sr_logs rc = logs_of (ss_main s)
    /\ logs_of (ss_start s) = [] /\ parties_of (ss_start s) = [] /\ parties_of (ss_alloc s) = []
    /\ (sr_success rc = true ->
          (exists mem, ss_end s = Returned mem)
          /\ sr_returndata rc = Some (returned s) /\ region_of (ss_alloc s) = None
          /\ forall x, In x (sr_touched rc) <-> x = env_principal ev \/ x = new \/ In x (parties_of (ss_main s)))
    /\ (sr_success rc = false -> exists msg, ss_end s = Trapped msg).
Proof.
  intros HI HC HH HL Hm Ed E HF new. pose proof (live_typed e g HI HC HL) as HT.
  unfold spawn in E. rewrite Ed in E.
  assert (Hsp : spawn_wf sp) by (eapply decoded_canon; eauto using spawn_canon). destruct Hsp as [S1 S2 S3 S4 S5].
  pose proof (reads_sections e (sp_template sp) g) as R1.
  destruct (template_sections e (sp_template sp) g) as [[l|?|] g0]; cbn [snd] in R1; subst; try discriminate.
  assert (NO : forall er lg, rc = spawn_from_err er lg -> (forall a t n msg, er <> FuncFailed a t n msg) -> False).
  { intros er lg -> H. destruct HF as [HF|(x & t & msg & HF)]; [discriminate|]. cbn in HF. apply Some_inj in HF. now apply H in HF. }
  unfold ensure_ctor, sbind in E. destruct (is_ctor l (sp_ctor sp)) as [[]|]; cbn [ssome sret serr spanic] in E; try discriminate.
  2:{ injection E as <- _ _. destruct (NO _ _ eq_refl). discriminate. }
  destruct (check_gas_for_func _ _ _ _ _ _) as [[[n|]|] c1]; try discriminate.
  2:{ injection E as <- _ _. destruct (NO _ _ eq_refl). discriminate. }
  fold new in E.
  assert (Hnew : array_wf 20 new) by now apply addr_wf.
  assert (EF : forall a g1, account_create e new (sp_name sp) (sp_template sp) 0 0 g = (Ok a, g1) ->
     fields_of e new g1 = (Ok (sp_name sp), Ok (sp_template sp), Ok 0, Ok 0)).
  { intros a g1. unfold account_create, gbind. pose proof (reads_layout e (sp_template sp) g) as RL.
    destruct (template_layout e (sp_template sp) g) as [[lay|?|] g0]; cbn [snd] in *; subst; try discriminate.
    destruct (write_account_effect e new (sp_name sp) (sp_template sp) 0 0 g) as (g2 & -> & _ & O & F); auto; try reflexivity.
    cbn [gret]. intros [= _ <-]. apply F, HL. }
  destruct (account_create e new _ _ 0 0 g) as [[a|?|] g1]; try discriminate.
  specialize (EF a g1 eq_refl). unfold fields_of in EF. injection EF as _ F2 _ _.
  unfold call_ctor in E. set (cl := mkCall _ _ _ _ _ _) in E.
  destruct (exec_call e en cl g1) as [[rc1|] g2] eqn:Ex; [|discriminate].
  assert (X : sr_logs rc = cr_logs rc1 /\ sr_success rc = cr_success rc1 /\ (cr_success rc1 = false -> sr_error rc = cr_error rc1)
    /\ (cr_success rc1 = true -> sr_returndata rc = cr_returndata rc1
          /\ sr_touched rc = set_insert (env_principal ev) (set_insert new (cr_touched rc1)))).
  { unfold into_spawn_receipt in E. cbn [cr_success cr_error cr_touched cr_logs cr_new_state cr_returndata cr_gas_used] in E.
    destruct (cr_success rc1); [injection E as <- _ _; cbn; auto 8; repeat split; auto; discriminate|].
    destruct (cr_error rc1); [|discriminate]. injection E as <- _ _. cbn. repeat split; auto; discriminate. }
  destruct X as (X1 & X2 & X3 & X4).
  assert (HF1 : function_ran (cl_func cl) (cr_success rc1) (cr_error rc1)).
  { destruct (cr_success rc1); [now left|]. destruct HF as [HF|HF]; [congruence|]. right. now rewrite <- X3. }
  destruct (exec_call_session e en cl g1 rc1 g2 eq_refl F2 Ex HF1) as (s & K1 & K2 & K3 & K4 & K5 & K6 & K7).
  exists a, g1, s. split; [reflexivity|]. split; [exact K1|]. split; [congruence|]. split; [exact K3|]. split; [exact K4|]. split; [exact K5|].
  rewrite X2. split; [|exact K7]. intros Hok. destruct (K6 Hok) as (M & D & A & T). destruct (X4 Hok) as [X5 X6].
  split; [exact M|]. split; [congruence|]. split; [exact A|]. intros x. rewrite X6, !set_insert_in, T. cbn [cl cl_target]. tauto.
Qed.

(* ------------------------------------------------------------------------------------ *)
(** * The account query *)

Lemma get_account_reads e a g b k t : get_account e a g = (Ok (Some (b, k, t)), g) ->
  (exists x, fst (account_load e a g) = Ok x)
  /\ fst (account_balance e a g) = Ok b /\ fst (account_counter e a g) = Ok k /\ fst (account_template e a g) = Ok t.
Proof.
  unfold get_account, gbind. pose proof (reads_load e a g) as R1.
  destruct (account_load e a g) as [[x|?|] g1]; cbn [snd] in R1; subst; try discriminate.
  pose proof (reads_balance e a g) as R2. destruct (account_balance e a g) as [[b'|?|] g1]; cbn [snd] in R2; subst; try discriminate.
  assert (R3 : reads (account_counter e a)) by (apply reads_bind; [apply reads_decode|intros; apply reads_ret]). specialize (R3 g).
  destruct (account_counter e a g) as [[k'|?|] g1]; cbn [snd] in R3; subst; try discriminate.
  destruct (account_template e a g) as [[t'|?|] g1]; try discriminate. cbn. intros [= -> -> ->]. eauto.
Qed.

Lemma get_account_intro e a g x b k t : fst (account_load e a g) = Ok x ->
  fst (account_balance e a g) = Ok b -> fst (account_counter e a g) = Ok k -> fst (account_template e a g) = Ok t ->
  get_account e a g = (Ok (Some (b, k, t)), g).
Proof.
  unfold get_account, gbind. pose proof (reads_load e a g) as R1.
  destruct (account_load e a g) as [[x'|?|] g1]; cbn [fst snd] in *; subst; try discriminate. intros _.
  pose proof (reads_balance e a g) as R2. destruct (account_balance e a g) as [[b'|?|] g1]; cbn [fst snd] in *; subst; try discriminate.
  intros [= ->].
  assert (R3 : reads (account_counter e a)) by (apply reads_bind; [apply reads_decode|intros; apply reads_ret]). specialize (R3 g).
  destruct (account_counter e a g) as [[k'|?|] g1]; cbn [fst snd] in *; subst; try discriminate. intros [= ->].
  assert (R4 : reads (account_template e a)) by (apply reads_bind; [apply reads_decode|intros; apply reads_ret]). specialize (R4 g).
  destruct (account_template e a g) as [[t'|?|] g1]; cbn [fst snd] in *; subst; try discriminate. intros [= ->]. reflexivity.
Qed.

Lemma get_account_exists e a g b k t g' : get_account e a g = (Ok (Some (b, k, t)), g') -> exists_account e g a.
Proof.
  unfold get_account, gbind, exists_account. destruct (account_load e a g) as [[x|?|] g1]; try discriminate. intros _. exists x. reflexivity.
Qed.

(** An account that exists still exists when only balances and variables changed. *)
Lemma load_moves e B V g g' a : moves e B V g g' -> array_wf 20 a ->
  typed e g -> typed e g' -> gs_layer_param g = None ->
  fst (account_load e a g') = fst (account_load e a g).
Proof.
  intros M Ha HT HT' HP. pose proof M as [O _].
  assert (D : fst (read_and_decode e dec_account_data (key_immutable a) g') = fst (read_and_decode e dec_account_data (key_immutable a) g)).
  { apply decode_same; try apply O. apply (on_cur _ _ _ _ O (TImm a)); [now split|auto]. }
  unfold account_load, gbind.
  pose proof (reads_decode e dec_account_data (key_immutable a) g) as R1.
  pose proof (reads_decode e dec_account_data (key_immutable a) g') as R2.
  destruct (read_and_decode e dec_account_data (key_immutable a) g) as [[d|?|] g1] eqn:E1,
    (read_and_decode e dec_account_data (key_immutable a) g') as [[d'|?|] g1']; cbn [fst snd] in *; subst; try congruence.
  injection D as ->.
  assert (W : array_wf 20 (ad_template d)).
  { unfold read_and_decode, gbind, gs_get in E1. rewrite HP in E1. cbn [option_map] in E1.
    destruct (get _ _ _ _) as [[bs|]| |] eqn:E; cbn [lift] in E1; try discriminate.
    destruct (typed_get e g (TImm a) _ _ HT (conj Ha Logic.I) E) as (d' & Hd & Ed).
    destruct (account_data_rt d' Hd) as (bs' & E2 & D2). rewrite Ed in E2. apply Some_inj in E2. subst bs'.
    specialize (D2 []). rewrite app_nil_r in D2. rewrite D2 in E1. injection E1 as <-. apply Hd. }
  assert (L : fst (template_layout e (ad_template d) g') = fst (template_layout e (ad_template d) g)).
  { unfold template_layout, gbind.
    assert (S : fst (template_sections e (ad_template d) g') = fst (template_sections e (ad_template d) g)).
    { apply sections_same; try apply O; [apply (on_cur _ _ _ _ O (TCore (ad_template d)))|apply (on_cur _ _ _ _ O (TNon (ad_template d)))];
        try (now split); auto. }
    destruct (template_sections e (ad_template d) g) as [[l|?|] g1], (template_sections e (ad_template d) g') as [[l'|?|] g1'];
      cbn [fst] in *; try congruence. injection S as ->. destruct (get_section KData l) as [[| |[|]| | | |]|]; reflexivity. }
  destruct (template_layout e (ad_template d) g) as [[l|?|] g1], (template_layout e (ad_template d) g') as [[l'|?|] g1'];
    cbn [fst] in *; try congruence. injection L as ->. reflexivity.
Qed.

Lemma get_account_moves e B V g g' a b k t b' : iterates e -> collision_free e -> live e g -> live e g' ->
  moves e B V g g' -> array_wf 20 a -> get_account e a g = (Ok (Some (b, k, t)), g) ->
  fst (account_balance e a g') = Ok b' -> get_account e a g' = (Ok (Some (b', k, t)), g').
Proof.
  intros HI HC HL HL' M Ha E Eb. pose proof (live_typed e g HI HC HL) as HT. pose proof (live_typed e g' HI HC HL') as HT'.
  apply get_account_reads in E. destruct E as ((x & E1) & E2 & E3 & E4).
  pose proof (moves_unchanged e B V g g' HT HT' M) as U. destruct (ue_record _ _ _ _ _ U a Ha) as (U1 & U2 & U3).
  eapply get_account_intro; [|exact Eb| |].
  - rewrite (load_moves e B V g g' a M Ha HT HT' (proj2 HL)). exact E1.
  - congruence.
  - congruence.
Qed.

Lemma create_get_account e a name t b k x g g' : iterates e -> collision_free e -> live e g ->
  array_wf 20 a -> string_wf 255 name -> array_wf 20 t -> uint_wf 64 b -> uint_wf 128 k ->
  account_create e a name t b k g = (Ok x, g') -> get_account e a g' = (Ok (Some (b, k, t)), g').
Proof.
  intros HI HC HL Ha Hn Ht Hb Hk. pose proof (live_typed e g HI HC HL) as HT. pose proof HL as [_ HP].
  unfold account_create, gbind. pose proof (reads_layout e t g) as RL.
  destruct (template_layout e t g) as [[lay|?|] g0] eqn:El; cbn [snd] in RL; subst; try discriminate.
  destruct (write_account_effect e a name t b k g) as (g1 & -> & HT1 & O & F); auto. cbn [gret]. intros [= _ <-].
  specialize (F HP). unfold fields_of in F. injection F as F1 F2 F3 F4.
  assert (L : fst (template_layout e t g1) = Ok lay).
  { assert (S : fst (template_sections e t g1) = fst (template_sections e t g)).
    { apply sections_same; try apply O; [apply (on_cur _ _ _ _ O (TCore t))|apply (on_cur _ _ _ _ O (TNon t))];
        try (now split); intros [H|H]; discriminate. }
    unfold template_layout, gbind in *.
    destruct (template_sections e t g) as [[l|?|] ?], (template_sections e t g1) as [[l'|?|] ?]; cbn [fst] in *; try congruence.
    injection S as ->. destruct (get_section KData l) as [[| |[|]| | | |]|]; unfold gpanic, gret in *; cbn [fst] in *; congruence. }
  eapply get_account_intro; eauto.
  unfold account_load, gbind. unfold account_template, gbind in F2.
  pose proof (reads_decode e dec_account_data (key_immutable a) g1) as R.
  destruct (read_and_decode e dec_account_data (key_immutable a) g1) as [[d|?|] g2]; cbn [fst snd] in *; subst; try discriminate.
  cbn in F2. injection F2 as ->. destruct (template_layout e t g1) as [[l|?|] g2]; cbn [fst] in L; try discriminate.
  injection L as ->. reflexivity.
Qed.
