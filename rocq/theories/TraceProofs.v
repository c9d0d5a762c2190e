(** What every host call does, a whole call or spawn does. *)
From Coq Require Import List NArith ZArith Bool Lia.
From Coq Require Import ZifyBool ZifyNat ZifyN.
From Verif Require Import Base CodecModel CodecSpec CodecProofs ReceiptModel ReceiptProofs LayoutModel SectionModel.
From Verif Require Import SectionSpec SectionProofs SectionCanon StorageModel StorageSpec StorageProofs GlobalModel GlobalSpec GlobalProofs.
From Verif Require Import RuntimeModel RuntimeSpec RuntimeProofs SupplySpec SupplyProofs ObserveSpec ObserveProofs PaySpec.
Import ListNotations.
Open Scope N_scope.

(** A relation between two states and the host calls answered between them that holds for
    single host calls made for the account [a], composes, and does not see commits, holds
    for whole calls of [a]. *)
Section Trace.
Variables (e : env) (en : engine) (a : account) (Q : gstate -> gstate -> list event -> Prop).
Hypothesis HI : iterates e.
Hypothesis HC : collision_free e.
Hypothesis HE : engine_wf en.
Hypothesis Haw : array_wf 20 (ac_addr a).
Hypothesis Q_nil : forall g, Q g g [].
Hypothesis Q_app : forall g1 g2 g3 h1 h2, Q g1 g2 h1 -> Q g2 g3 h2 -> Q g1 g3 (h1 ++ h2).
Hypothesis Q_now : forall g g', live e g -> live e g' -> same_now e g g' -> Q g g' [].
Hypothesis Q_host : forall f mem c g v mem' f' g', fe_account f = a -> live e g -> bytes_ok mem ->
  host_call e f mem c g = (Ok (v, mem', f'), g') -> Q g g' [(c, mem)].

Lemma run_wasm_trace {R} (t : wasm R) : wasm_wf t ->
  forall f g, live e g -> fe_account f = a ->
  match run_wasm e t f g with
  | (Panic, _) => True
  | (_, g') => Q g g' (events e t f g)
  end.
Proof.
  intros Hw. induction Hw as [mem x Hm|msg|mem c k Hm Hk IH]; intros f g HL Ha; cbn [run_wasm events]; try apply Q_nil.
  destruct (host_call e f mem c g) as [[[[v mem'] f1]|er|] g1] eqn:E; auto.
  pose proof (Q_host f mem c g v mem' f1 g1 Ha HL Hm E) as P1.
  apply host_call_cases in E; auto; [|now rewrite Ha]. destruct E as (HL1 & Hm' & S1 & _).
  specialize (IH v mem' Hm' f1 g1 HL1 ltac:(destruct S1 as [S1 _]; congruence)).
  change ((c, mem) :: events e (k v mem') f1 g1) with ([(c, mem)] ++ events e (k v mem') f1 g1).
  destruct (run_wasm e (k v mem') f1 g1) as [[?|?|] g2]; auto; eapply Q_app; eauto.
Qed.

Lemma run_trace cl l g r g' c s : live e g ->
  bytes_ok (cl_input cl) ->
  code_of l = Some c -> cl_mode cl = FullAccess ->
  run e en cl l (env_new a (cl_template cl) (cl_mode cl)) g = (r, g') -> reaches_main (cl_func cl) r ->
  session_of e en a (cl_template cl) (cs_code c) (cl_func cl) (cl_input cl) FullAccess g = Some s ->
  live e g' /\ Q g g' (session_events s).
Proof.
  intros HL Hin Hc Hm. rewrite Hm. unfold run, sbind at 1. set (f0 := env_new a (cl_template cl) FullAccess).
  pose proof (validate_func_usage_reads cl l f0 g) as RV.
  destruct (validate_func_usage cl l f0 g) as [[[]|er|] g0] eqn:EV; cbn [snd] in RV; subst g0.
  2:{ intros [= <- <-]. unfold validate_func_usage, ensure_ctor, sbind in EV.
      destruct (cl_within_spawn cl), (is_ctor l (cl_func cl)) as [[]|]; cbn in EV; try discriminate EV;
        injection EV as <-; intros []. }
  2:{ intros [= <- <-] []. }
  unfold sbind at 1, instantiate, sbind at 1. rewrite Hc. cbn [ssome]. unfold sret at 1.
  destruct (en_compile en (cs_code c)); [intros [= <- <-] []|].
  pose proof (run_wasm_trace (en_instantiate en (cs_code c)) (proj1 HE _) f0 g HL eq_refl) as T0. unfold session_of. fold f0.
  destruct (run_wasm e (en_instantiate en (cs_code c)) f0 g) as [[[[mem i] f1]|[msg f1]|] g1] eqn:E0;
    [|intros [= <- <-] []|intros [= <- <-] []].
  apply run_wasm_cases in E0; auto; [|apply HE]. destruct E0 as (HL1 & Hm1 & S1 & _).
  assert (Ha1 : fe_account f1 = a) by (destruct S1 as [S1 _]; exact S1).
  assert (Hw1 : array_wf 20 (ac_addr (fe_account f1))) by now rewrite Ha1.
  unfold sbind at 1. destruct (en_has_memory en i); cbn [sassert]; [|intros [= <- <-] []]. unfold sret at 1.
  set (h0 := events e (en_instantiate en (cs_code c)) f0 g) in *.
  set (f2 := with_memory f1).
  destruct (func en i f2 (cl_func cl) SigUnit) as [fl|] eqn:EF.
  { intros [= <- <-]. unfold func in EF. destruct (en_func en i (cl_func cl)) as [[]|]; try discriminate EF; injection EF as <-; intros []. }
  unfold sbind at 1. unfold session_events.
  destruct (cl_input cl) as [|x0 xs] eqn:Ein.
  - change (0 <? nlen (@nil N)) with false. cbv iota. unfold wasmer_call.
    set (main := en_call en i (cl_func cl) [] mem).
    pose proof (run_wasm_trace main (proj2 HE _ _ _ _ Hm1) f2 g1 HL1 Ha1) as T1.
    destruct (run_wasm e main f2 g1) as [[[[mem' [rets i']] f']|[msg f']|] g2] eqn:E1; cbn [fst ending_of option_map];
      apply run_wasm_cases in E1; auto; try (apply HE; auto); destruct E1 as [HL2 _];
      intros [= <- <-] HR; [| |destruct HR]; intros [= <-]; cbn [ss_main ss_start ss_alloc app];
      (split; [exact HL2|]); eapply Q_app; eauto.
  - rewrite <- Ein in *. assert (Hlen : (0 <? nlen (cl_input cl)) = true) by (rewrite Ein, nlen_cons; lia). rewrite Hlen.
    unfold call_with_alloc.
    destruct (func en i f2 svm_alloc SigAlloc) as [fl|] eqn:EA; [intros [= <- <-] []|].
    assert (Hne : cl_func cl <> svm_alloc).
    { intros E. rewrite E in EF. unfold func in EA, EF. destruct (en_func en i svm_alloc) as [[]|]; discriminate. }
    unfold sbind at 1. unfold wasmer_call at 1. set (fa := with_mode AccessDenied f2).
    set (alloc := en_call en i svm_alloc [nlen (cl_input cl)] mem).
    pose proof (run_wasm_trace alloc (proj2 HE _ _ _ _ Hm1) fa g1 HL1 Ha1) as T1.
    destruct (run_wasm e alloc fa g1) as [[[[mem1 [rets i1]] f3]|[msg f3]|] g2] eqn:E1.
    2:{ intros [= <- <-] HR. cbn [reaches_main] in HR. congruence. }
    2:{ intros [= <- <-] []. }
    apply run_wasm_cases in E1; auto; [|now apply HE]. destruct E1 as (HL2 & Hm2 & S2 & _).
    assert (Ha2 : fe_account f3 = a) by (destruct S2 as [S2 _]; cbn in S2; congruence).
    assert (Hw3 : array_wf 20 (ac_addr (fe_account f3))) by now rewrite Ha2.
    set (h1 := events e alloc fa g1) in *.
    destruct rets as [|offset rets]; cbn [nth_error ssome]; [intros [= <- <-] []|].
    unfold sbind at 1, sret at 1. unfold sbind at 1.
    destruct (fe_returndata (with_mode (fe_mode f2) (with_logs [] f3))) eqn:ER; cbn [sassert]; [intros [= <- <-] []|].
    unfold sret at 1. unfold sbind at 1.
    destruct (mem_write mem1 offset (cl_input cl)) as [mem2|] eqn:Ew; cbn [ssome]; [|intros [= <- <-] []]. unfold sret at 1.
    assert (Hw2 : bytes_ok mem2).
    { unfold mem_write in Ew. destruct (_ <=? _); [|discriminate]. apply Some_inj in Ew. subst. now apply splice_ok. }
    assert (M2 : fe_mode f2 = FullAccess) by (cbn [f2 with_memory fe_mode]; destruct S1 as (_ & _ & S1 & _); exact S1).
    rewrite M2. unfold wasmer_call.
    set (main := en_call en i1 (cl_func cl) [] mem2).
    set (f4 := with_calldata (offset, nlen (cl_input cl)) (with_mode FullAccess (with_logs [] f3))).
    pose proof (run_wasm_trace main (proj2 HE _ _ _ _ Hw2) f4 g2 HL2 Ha2) as T2.
    destruct (run_wasm e main f4 g2) as [[[[mem' [rets' i']] f']|[msg f']|] g3] eqn:E2; cbn [fst ending_of option_map];
      apply run_wasm_cases in E2; auto; try (apply HE; auto); destruct E2 as [HL3 _];
      intros [= <- <-] HR; [| |destruct HR]; rewrite ?Ein; intros [= <-]; cbn [ss_main ss_start ss_alloc];
      (split; [exact HL3|]); eapply Q_app; [exact T0| |exact T0|];
      eapply Q_app; eauto.
Qed.

Lemma exec_call_trace cl g rc g' s : live e g -> fst (account_load e (cl_target cl) g) = Ok a -> bytes_ok (cl_input cl) ->
  cl_mode cl = FullAccess -> fst (account_template e (cl_target cl) g) = Ok (cl_template cl) ->
  exec_call e en cl g = (Some rc, g') -> function_ran (cl_func cl) (cr_success rc) (cr_error rc) ->
  runs_as e en (cl_target cl) (cl_func cl) (cl_input cl) g s ->
  Q g g' (session_events s).
Proof.
  intros HL Hta Hin Hm Ht. unfold exec_call. destruct (exec e en cl g) as [o g0] eqn:E. unfold exec, load_template in E.
  unfold sbind at 1 in E.
  destruct (@unwrap_read failure _ (account_load e (cl_target cl)) g (reads_load e _)) as [(a1 & E1 & R1)|[E1 R1]]; rewrite R1 in E.
  2:{ injection E as <- <-. discriminate. }
  unfold sbind at 1 in E.
  destruct (@unwrap_read failure _ (account_template e (cl_target cl)) g) as [(t & E2 & R2)|[E2 R2]];
    [apply reads_bind; [apply reads_decode|intros; apply reads_ret]|rewrite R2 in E|rewrite R2 in E].
  2:{ injection E as <- <-. discriminate. }
  assert (t = cl_template cl) by congruence. subst t.
  unfold sbind at 1 in E.
  destruct (@unwrap_read failure _ (template_sections e (cl_template cl)) g (reads_sections e _)) as [(l & E3 & R3)|[E3 R3]]; rewrite R3 in E.
  2:{ injection E as <- <-. discriminate. }
  unfold sbind at 1 in E. rewrite R1 in E. unfold sbind at 1 in E.
  destruct (run e en cl l (env_new a1 (cl_template cl) (cl_mode cl)) g) as [r g1] eqn:Er.
  assert (K : reaches_main (cl_func cl) r -> runs_as e en (cl_target cl) (cl_func cl) (cl_input cl) g s ->
              live e g1 /\ Q g g1 (session_events s)).
  { intros HR (a2 & ta & l' & c & A1 & A2 & A3 & A4 & A5).
    assert (a2 = a) by congruence. assert (a1 = a) by congruence. assert (ta = cl_template cl) by congruence. subst a1 a2 ta.
    assert (l' = l) by congruence. subst l'.
    eapply run_trace; eauto. }
  destruct r as [[[mem logs] f]|[er lg]|].
  3:{ injection E as <- <-. discriminate. }
  - destruct (outcome_to_receipt e mem logs f g1) as [r g2] eqn:EO. injection E as <- <-.
    intros H _ HR. destruct (K Logic.I HR) as [HL1 K1]. apply outcome_cases in EO; auto. destruct EO as (HL2 & SN & EO).
    destruct r as [rc'|?|]; [injection H as <- <-|contradiction|discriminate].
    rewrite <- (app_nil_r (session_events s)). eapply Q_app; [exact K1|]. now apply Q_now.
  - injection E as <- <-. intros [= <- <-]. cbn [call_from_err cr_success cr_error]. intros [H|(a' & t & msg & H)]; [discriminate|].
    apply Some_inj in H. subst er. intros HR. now apply K.
Qed.

Lemma call_trace m tx g rc g' s : live e g -> bytes_ok m ->
  decoded dec_transaction m = Some tx -> fst (account_load e (tx_target tx) g) = Ok a -> rt_call e en m g = (Some rc, g') ->
  function_ran (tx_func_name tx) (cr_success rc) (cr_error rc) ->
  runs_as e en (tx_target tx) (tx_func_name tx) (tx_calldata tx) g s ->
  Q g g' (session_events s).
Proof.
  intros HL Hm Ed Hl. unfold rt_call. rewrite Ed. unfold transact.
  assert (Hw : transaction_wf tx) by (eapply decoded_canon; eauto using transaction_canon). destruct Hw as [S1 S2 S3 S4 S5].
  destruct (build_call_reads e tx FullAccess (tx_func_name tx) (tx_calldata tx) g) as [(cl & -> & Em & En & Et & Ei & _ & Ea)| ->];
    [|discriminate].
  intros H HF. rewrite <- En in HF. rewrite <- Et in Ea. pose proof (exec_call_trace cl g rc g' s HL) as K.
  rewrite En, Et, Ei in K. rewrite Et in Ea. rewrite En in HF. apply K; auto. apply S5.
Qed.


Lemma spawn_trace ev m c g sp rc c' g' x g1 s : hash_wf e -> live e g1 -> bytes_ok m ->
  decoded dec_spawn m = Some sp -> spawn e en ev m c g = (Some rc, c', g') ->
  function_ran (sp_ctor sp) (sr_success rc) (sr_error rc) ->
  let new := account_addr e (sp_template sp) in
  account_create e new (sp_name sp) (sp_template sp) 0 0 g = (Ok x, g1) ->
  fst (account_load e new g1) = Ok a -> fst (account_template e new g1) = Ok (sp_template sp) ->
  runs_as e en new (sp_ctor sp) (sp_calldata sp) g1 s -> Q g1 g' (session_events s).
Proof.
  intros HH HL1 Hm Ed E HF new A1 AL T1 A2.
  assert (Hsp : spawn_wf sp) by (eapply decoded_canon; eauto using spawn_canon). destruct Hsp as [S1 S2 S3 S4 S5].
  unfold spawn in E. rewrite Ed in E.
  pose proof (reads_sections e (sp_template sp) g) as R1.
  destruct (template_sections e (sp_template sp) g) as [[l|?|] g0]; cbn [snd] in R1; subst; try discriminate.
  assert (NO : forall er lg, rc = spawn_from_err er lg -> (forall b t n msg, er <> FuncFailed b t n msg) -> False).
  { intros er lg -> H. destruct HF as [HF|(y & t & msg & HF)]; [discriminate|]. cbn in HF. apply Some_inj in HF. now apply H in HF. }
  unfold ensure_ctor, sbind in E. destruct (is_ctor l (sp_ctor sp)) as [[]|]; cbn [ssome sret serr spanic] in E; try discriminate.
  2:{ injection E as <- _ _. destruct (NO _ _ eq_refl). discriminate. }
  destruct (check_gas_for_func _ _ _ _ _ _) as [[[n|]|] c1]; try discriminate.
  2:{ injection E as <- _ _. destruct (NO _ _ eq_refl). discriminate. }
  fold new in E. rewrite A1 in E.
  unfold call_ctor in E. set (cl := mkCall _ _ _ _ _ _) in E.
  destruct (exec_call e en cl g1) as [[rc1|] g2] eqn:Ex; [|discriminate].
  assert (X : g' = g2 /\ sr_success rc = cr_success rc1 /\ (cr_success rc1 = false -> sr_error rc = cr_error rc1)).
  { unfold into_spawn_receipt in E. cbn [cr_success cr_error cr_touched cr_logs cr_new_state cr_returndata cr_gas_used] in E.
    destruct (cr_success rc1); [injection E as <- _ <-; cbn; auto; repeat split; discriminate|].
    destruct (cr_error rc1); [|discriminate]. injection E as <- _ <-. cbn. repeat split; auto. }
  destruct X as (-> & X2 & X3).
  assert (HF1 : function_ran (cl_func cl) (cr_success rc1) (cr_error rc1)).
  { destruct (cr_success rc1); [now left|]. destruct HF as [HF|HF]; [congruence|]. right. now rewrite <- X3. }
  apply (exec_call_trace cl g1 rc1 g2 s); auto. apply S5.
Qed.
End Trace.
