(** Receipts of the runtime on the wire. *)
From Coq Require Import List NArith ZArith Bool Lia ZifyBool ZifyNat ZifyN.
From Verif Require Import Base Text CodecModel CodecSpec CodecProofs ReceiptModel ReceiptSpec ReceiptProofs.
From Verif Require Import LayoutModel SectionModel SectionSpec SectionProofs StorageModel StorageSpec StorageProofs.
From Verif Require Import GlobalModel GlobalSpec GlobalProofs RuntimeModel RuntimeSpec RuntimeProofs ObserveProofs.
From Verif Require Import FfiModel FfiSpec FfiProofs AnswerSpec.
Import ListNotations.
Open Scope N_scope.

(** ** State roots have 32 bytes *)
Definition bit_fp (b : bytes) : Prop := b = state_zeros \/ b = state_ones.
Lemma bit_xor a b : bit_fp a -> bit_fp b -> bit_fp (xor_fingerprint a b).
Proof. intros [-> | ->] [-> | ->]; vm_compute; auto. Qed.
Lemma bit_array b : bit_fp b -> array_wf 32 b.
Proof. intros [-> | ->]; (split; [reflexivity|]; apply bytes_okb_ok; reflexivity). Qed.
Definition fp_ok (s : storage) : Prop := Forall (fun r => bit_fp (lr_fp r)) (db_layers (st_db s)) /\ bit_fp (st_xor s).
Lemma insert_values_layers d id l d' : insert_values d id l = Ok d' -> db_layers d' = db_layers d.
Proof.
  revert d. induction l as [|[k v] l IH]; intros d; cbn [insert_values]; [now intros [= <-]|].
  unfold insert_value, bind. destruct (existsb _ _); [|discriminate]. intros H. apply IH in H. exact H.
Qed.
Lemma commit_fp e s o s' : commit e s = (o, s') -> fp_ok s -> fp_ok s' /\ forall id fp, o = Ok (id, fp) -> bit_fp fp.
Proof.
  intros E [F X]. unfold commit in E. destruct (st_dirty s); [|injection E as <- <-; split; [split; assumption|discriminate]].
  destruct (layer_fingerprint (st_db s) _ true) as [prev|?|] eqn:P; try (injection E as <- <-; split; [split; assumption|discriminate]).
  assert (BP : bit_fp prev).
  { unfold layer_fingerprint in P. destruct (find _ _) as [r|] eqn:Fd; [|discriminate]. injection P as <-. apply find_some in Fd as [I _].
    rewrite Forall_forall in F. now apply F. }
  assert (BX : bit_fp (xor_fingerprint prev (st_xor s))) by now apply bit_xor.
  destruct (insert_layer (st_db s) _ _ false) as [d1|?|] eqn:I1; try (injection E as <- <-; split; [split; assumption|discriminate]).
  assert (F1 : Forall (fun r => bit_fp (lr_fp r)) (db_layers d1)).
  { unfold insert_layer in I1. destruct (existsb _ _); [discriminate|]. injection I1 as <-. cbn [db_layers]. apply Forall_app. split; [exact F|].
    constructor; [exact BX|constructor]. }
  destruct (insert_values d1 _ _) as [d2|?|] eqn:I2; try (injection E as <- <-; split; [split; assumption|discriminate]).
  injection E as <- <-. apply insert_values_layers in I2. split; [|intros id fp [= <- <-]; exact BX]. split; [|right; reflexivity].
  cbn [st_db]. unfold update_layer. cbn [db_layers]. rewrite I2. apply Forall_map. eapply Forall_impl; [|exact F1]. intros r Hr.
  destruct (_ && _); [exact BX|exact Hr].
Qed.
Lemma exec_fp e o s : fp_ok s -> fp_ok (snd (StorageSpec.exec e o s)).
Proof.
  intros [F X]. destruct o as [k x| | | |l]; cbn [StorageSpec.exec snd]; try (split; assumption).
  - rewrite checkpoint_eq. split; assumption.
  - destruct (commit e s) as [o s'] eqn:E. apply commit_fp in E; [|split; assumption]. destruct E as [E _]. destruct o as [[? ?]|[]|]; exact E.
  - unfold rewind. destruct (_ <? _)%Z; [|split; assumption]. destruct (st_dirty s); [|split; assumption]. cbn [snd fst]. split; [|right; reflexivity].
    cbn [st_db delete_layers_above db_layers]. apply Forall_forall. intros r Hr. apply filter_In in Hr. rewrite Forall_forall in F. apply F. tauto.
Qed.
Lemma exec_all_fp e ops : forall s, fp_ok s -> fp_ok (snd (exec_all e ops s)).
Proof.
  induction ops as [|o ops IH]; intros s H; cbn [exec_all]; [exact H|]. pose proof (exec_fp e o s H) as H1.
  destruct (StorageSpec.exec e o s) as [r s1]. cbn [snd] in H1. specialize (IH s1 H1). destruct (exec_all e ops s1). exact IH.
Qed.
Lemma live_fp e g : live e g -> fp_ok (gs_storage g).
Proof.
  intros [H _]. destruct (gs_reachable_storage e g H) as (ops & _ & <-). apply exec_all_fp.
  split; [|left; reflexivity]. constructor; [left; reflexivity|constructor].
Qed.

(** ** What an execution puts into its receipt *)
Record tidy (f : func_env) : Prop := mkTidy {
  ty_account : array_wf 20 (ac_addr (fe_account f));
  ty_template : array_wf 20 (fe_template f);
  ty_logs : Forall bytes_ok (fe_logs f);
  ty_once : NoDup (fe_touched f);
  ty_touched : Forall (array_wf 20) (fe_touched f)
}.
Lemma set_insert_once x l : NoDup l -> NoDup (set_insert x l).
Proof.
  intros N. unfold set_insert. destruct (existsb (bytes_eqb x) l) eqn:E; [exact N|]. apply NoDup_rev in N. rewrite <- (rev_involutive (l ++ [x])).
  apply NoDup_rev. rewrite rev_app_distr. cbn [rev app]. constructor; [|exact N]. rewrite <- in_rev. intros I.
  assert (K : existsb (bytes_eqb x) l = true) by (apply existsb_exists; exists x; split; [exact I|now apply bytes_eqb_spec]). congruence.
Qed.
Lemma set_insert_all (P : bytes -> Prop) x l : P x -> Forall P l -> Forall P (set_insert x l).
Proof. intros Hx Hl. unfold set_insert. destruct (existsb _ _); [exact Hl|]. apply Forall_app. auto. Qed.
Lemma tidy_new a t m : array_wf 20 (ac_addr a) -> array_wf 20 t -> tidy (env_new a t m).
Proof. intros Ha Ht. split; cbn [env_new fe_account fe_template fe_logs fe_touched]; auto. constructor; [easy|constructor]. Qed.
Lemma tidy_eq f f' : fe_account f' = fe_account f -> fe_template f' = fe_template f -> fe_logs f' = fe_logs f -> fe_touched f' = fe_touched f ->
  tidy f -> tidy f'.
Proof. intros A B C D [H1 H2 H3 H4 H5]. split; rewrite ?A, ?B, ?C, ?D; auto. Qed.
Lemma tidy_logs l f : Forall bytes_ok l -> tidy f -> tidy (with_logs l f).
Proof. intros L [H1 H2 H3 H4 H5]. split; cbn; auto. Qed.

Lemma read_array mem off v : bytes_ok mem -> mem_read mem off 20 = Some v -> array_wf 20 v.
Proof.
  intros Hm. unfold mem_read. destruct (N.leb_spec (off + 20) (nlen mem)); [|discriminate]. intros E. apply Some_inj in E. subst.
  split; [rewrite firstn_length, skipn_length; unfold nlen in *; lia|now apply firstn_ok, skipn_ok].
Qed.
Lemma read_ok mem off n v : bytes_ok mem -> mem_read mem off n = Some v -> bytes_ok v.
Proof. intros Hm. unfold mem_read. destruct (_ <=? _); [|discriminate]. intros E. apply Some_inj in E. subst. now apply firstn_ok, skipn_ok. Qed.

Lemma host_call_tidy e f mem c g v mem' f' g' :
  host_call e f mem c g = (Ok (v, mem', f'), g') -> bytes_ok mem -> tidy f -> tidy f'.
Proof.
  intros H Hm T. destruct c; cbn [host_call] in H;
    repeat match goal with
    | H : sbind _ _ _ = (Ok _, _) |- _ => apply sbind_ok in H as (? & ? & ? & H)
    | H : sassert _ _ = (Ok _, _) |- _ => apply sassert_ok in H as [? ->]
    | H : ssome _ _ = (Ok _, _) |- _ => apply ssome_ok in H as [? ->]
    | H : (if ?b then _ else _) _ = (Ok _, _) |- _ => destruct b eqn:?
    | H : spanic _ = _ |- _ => discriminate H
    | H : (let (_, _) := ?p in _) _ = _ |- _ => destruct p
    end; try discriminate;
    try (injection H as <- <- <- <-); try exact T;
    try (eapply tidy_eq; [..|exact T]; reflexivity).
  - apply tidy_logs; [|exact T]. apply Forall_app. split; [apply T|]. constructor; [|constructor]. eapply read_ok; eauto.
  - destruct T as [T1 T2 T3 T4 T5]. split; cbn [touch fe_account fe_template fe_logs fe_touched]; auto.
    + now apply set_insert_once, set_insert_once.
    + apply set_insert_all; [eapply read_array; eauto|]. apply set_insert_all; [eapply read_array; eauto|exact T5].
Qed.

Lemma run_wasm_tidy {R} e (t : wasm R) : iterates e -> collision_free e -> wasm_wf t -> trap_texts t ->
  forall f g r g', live e g -> tidy f -> run_wasm e t f g = (r, g') ->
  live e g' /\
  match r with
  | Ok (mem, _, f') => bytes_ok mem /\ tidy f'
  | Err (msg, f') => text_wf msg /\ tidy f'
  | Panic => True
  end.
Proof.
  intros HI HC Hw. induction Hw as [mem x Hm|msg|mem c k Hm Hk IH]; intros Ht f g r g' HL T; cbn [run_wasm].
  - intros [= <- <-]. auto.
  - inversion Ht; subst. intros [= <- <-]. auto.
  - destruct (host_call e f mem c g) as [[[[v mem'] f1]|er|] g1] eqn:E;
      pose proof E as E0; apply host_call_cases in E; try apply T; auto; destruct E as [HL1 E].
    + destruct E as (Hm' & _ & _). intros H. assert (Hk' : trap_texts (k v mem')) by (inversion Ht; auto).
      exact (IH v mem' Hm' Hk' f1 g1 r g' HL1 (host_call_tidy _ _ _ _ _ _ _ _ _ E0 Hm T) H).
    + contradiction.
    + intros [= <- <-]. auto.
Qed.

(** The texts of an error are those of Rust strings; function names fit their length byte. *)
Definition error_texts (er : runtime_error) : Prop :=
  match er with
  | OOG => True
  | TemplateNotFound a | AccountNotFound a => array_wf 20 a
  | CompilationFailed a t s | InstantiationFailed a t s => array_wf 20 a /\ array_wf 20 t /\ text_wf s
  | FuncNotFound a t s | FuncInvalidSignature a t s => array_wf 20 a /\ array_wf 20 t /\ string_wf 255 s
  | FuncFailed a t f m => array_wf 20 a /\ array_wf 20 t /\ string_wf 255 f /\ text_wf m
  | FuncNotAllowed a t f m => array_wf 20 a /\ array_wf 20 t /\ string_wf 255 f /\ msg_wf m
  | FuncNotCtor t f => array_wf 20 t /\ string_wf 255 f
  end.
Definition fails_well (x : failure) : Prop := error_texts (fst x) /\ Forall bytes_ok (snd x).
Definition ends_well {A} e (r : outcome failure A) (g' : gstate) (good : A -> Prop) : Prop :=
  live e g' /\ match r with Ok a => good a | Err x => fails_well x | Panic => True end.

Lemma wasmer_tidy e en i f name ps mem g r g' : iterates e -> collision_free e -> engine_wf en -> engine_texts en ->
  live e g -> tidy f -> bytes_ok mem -> string_wf 255 name ->
  wasmer_call e en i f name ps mem g = (r, g') ->
  ends_well e r g' (fun '(mem', _, _, logs, f') => bytes_ok mem' /\ Forall bytes_ok logs /\ tidy f').
Proof.
  intros HI HC [_ HE] (_ & _ & HT) HL T Hm Hn. unfold wasmer_call.
  destruct (run_wasm e (en_call en i name ps mem) f g) as [o g1] eqn:E.
  apply run_wasm_tidy in E; auto. destruct E as [HL1 E]. destruct o as [[[mem' [rets i']] f']|[msg f']|]; intros [= <- <-]; split; auto.
  - destruct E as [Em T']. split; [exact Em|]. split; [apply T'|]. apply tidy_logs; [constructor|exact T'].
  - destruct E as [Em T']. split; cbn [fst snd error_texts]; [|apply T']. split; [apply T'|]. split; [apply T'|]. auto.
Qed.
Lemma func_tidy en i f name sg fail : func en i f name sg = Some fail -> tidy f -> string_wf 255 name -> fails_well fail.
Proof.
  intros H T N. unfold func in H.
  destruct (en_func en i name) as [[]|], sg; try discriminate H; injection H as <-;
    (split; cbn [fst snd error_texts]; [|constructor]; split; [apply T|]; split; [apply T|exact N]).
Qed.
Lemma alloc_name : string_wf 255 svm_alloc.
Proof. split; [split; [vm_compute; discriminate|apply bytes_okb_ok; reflexivity]|reflexivity]. Qed.

Lemma call_with_alloc_tidy e en i f name input mem g r g' : iterates e -> collision_free e -> engine_wf en -> engine_texts en ->
  live e g -> tidy f -> bytes_ok mem -> string_wf 255 name -> bytes_ok input ->
  call_with_alloc e en i f name input mem g = (r, g') ->
  ends_well e r g' (fun '(mem', _, _, logs, f') => bytes_ok mem' /\ Forall bytes_ok logs /\ tidy f').
Proof.
  intros HI HC HE HT HL T Hm Hn Hin. unfold call_with_alloc.
  destruct (func en i f svm_alloc SigAlloc) as [fail|].
  { intros [= <- <-]. split; [exact HL|]. split; cbn [fst snd err_func_not_found error_texts]; [|constructor].
    split; [apply T|]. split; [apply T|exact alloc_name]. }
  unfold sbind at 1.
  destruct (wasmer_call e en i (with_mode AccessDenied f) svm_alloc [nlen input] mem g) as [o g1] eqn:E.
  apply wasmer_tidy in E; auto using alloc_name; [|now apply (tidy_eq f)]. destruct E as [HL1 E].
  destruct o as [[[[[mem1 rets] i1] lg] f1]|er|]; [|intros [= <- <-]; split; auto..].
  destruct E as (Hm1 & _ & T1). unfold sbind at 1. destruct (nth_error rets 0) as [offset|]; cbn [ssome]; [|intros [= <- <-]; split; auto].
  unfold sret at 1. cbv zeta. unfold sbind at 1. destruct (match fe_returndata _ with None => true | Some _ => false end); cbn [sassert]; [|intros [= <- <-]; split; auto].
  unfold sret at 1. unfold sbind at 1. destruct (mem_write mem1 offset input) as [mem2|] eqn:W; cbn [ssome]; [|intros [= <- <-]; split; auto].
  unfold sret at 1. intros H. eapply wasmer_tidy; [..|exact H]; auto; [now apply (tidy_eq f1)|].
  unfold mem_write in W. destruct (_ <=? _); [|discriminate]. apply Some_inj in W. subst. now apply splice_ok.
Qed.

Lemma usage_tidy cl l f g r g' : tidy f -> array_wf 20 (cl_template cl) -> string_wf 255 (cl_func cl) ->
  validate_func_usage cl l f g = (r, g') -> g' = g /\ match r with Err x => fails_well x | _ => True end.
Proof.
  intros T Ht Hn. unfold validate_func_usage, ensure_ctor, sbind.
  assert (M : msg_wf msg_not_allowed) by (split; [apply bytes_okb_ok; reflexivity|split; reflexivity]).
  destruct (cl_within_spawn cl), (is_ctor l (cl_func cl)) as [[]|]; cbn [ssome]; unfold sret, serr, spanic;
    intros [= <- <-]; (split; [reflexivity|]); auto; (split; cbn [fst snd error_texts]; [|constructor]).
  - auto.
  - split; [apply T|]. split; [apply T|]. auto.
Qed.

Lemma instantiate_tidy e en l f g r g' : iterates e -> collision_free e -> engine_wf en -> engine_texts en ->
  live e g -> tidy f -> instantiate e en l f g = (r, g') ->
  ends_well e r g' (fun '(mem, _, f') => bytes_ok mem /\ tidy f').
Proof.
  intros HI HC [HE _] (HT1 & HT2 & _) HL T. unfold instantiate, sbind. destruct (code_of l) as [c|]; cbn [ssome]; [|intros [= <- <-]; split; auto].
  unfold sret. destruct (en_compile en (cs_code c)) as [msg|] eqn:Ec.
  { intros [= <- <-]. split; [exact HL|]. split; cbn [fst snd error_texts]; [|constructor]. split; [apply T|]. split; [apply T|eapply HT1; eauto]. }
  destruct (run_wasm e (en_instantiate en (cs_code c)) f g) as [o g1] eqn:E. apply run_wasm_tidy in E; auto. destruct E as [HL1 E].
  destruct o as [[[mem i] f1]|[msg f1]|]; intros [= <- <-]; split; auto.
  split; cbn [fst snd error_texts]; [|constructor]. split; [apply T|]. split; [apply T|apply E].
Qed.

Lemma run_tidy e en cl l f g r g' : iterates e -> collision_free e -> engine_wf en -> engine_texts en ->
  live e g -> tidy f -> array_wf 20 (cl_template cl) -> string_wf 255 (cl_func cl) -> bytes_ok (cl_input cl) ->
  run e en cl l f g = (r, g') ->
  ends_well e r g' (fun '(mem, logs, f') => bytes_ok mem /\ Forall bytes_ok logs /\ tidy f').
Proof.
  intros HI HC HE HT HL T Ht Hn Hin. unfold run. unfold sbind at 1.
  destruct (validate_func_usage cl l f g) as [o g0] eqn:EV. apply usage_tidy in EV; auto. destruct EV as [-> EV].
  destruct o as [[]|x|]; [|intros [= <- <-]; split; auto..].
  unfold sbind at 1. destruct (instantiate e en l f g) as [o g1] eqn:EI. apply instantiate_tidy in EI; auto. destruct EI as [HL1 EI].
  destruct o as [[[mem i] f1]|x|]; [|intros [= <- <-]; split; auto..]. destruct EI as [Hm T1].
  unfold sbind at 1. destruct (en_has_memory en i); cbn [sassert]; [|intros [= <- <-]; split; auto]. unfold sret at 1. cbv zeta.
  assert (T2 : tidy (with_memory f1)) by now apply (tidy_eq f1).
  destruct (func en i (with_memory f1) (cl_func cl) SigUnit) as [fail|] eqn:EF.
  { intros [= <- <-]. split; [exact HL1|]. eapply func_tidy; eauto. }
  unfold sbind. destruct (0 <? nlen (cl_input cl)).
  - destruct (call_with_alloc e en i (with_memory f1) (cl_func cl) (cl_input cl) mem g1) as [o g2] eqn:E. apply call_with_alloc_tidy in E; auto.
    destruct E as [HL2 E]. destruct o as [[[[[mem2 ?] ?] lg] f2]|x|]; intros [= <- <-]; split; auto.
  - destruct (wasmer_call e en i (with_memory f1) (cl_func cl) [] mem g1) as [o g2] eqn:E. apply wasmer_tidy in E; auto.
    destruct E as [HL2 E]. destruct o as [[[[[mem2 ?] ?] lg] f2]|x|]; intros [= <- <-]; split; auto.
Qed.

Record good_receipt (rc : call_receipt) : Prop := mkGood {
  gd_version : cr_version rc = 0;
  gd_success : cr_success rc = true;
  gd_error : cr_error rc = None;
  gd_state : exists st, cr_new_state rc = Some st /\ array_wf 32 st;
  gd_data : exists d, cr_returndata rc = Some d /\ bytes_ok d;
  gd_gas : cr_gas_used rc = None;
  gd_once : NoDup (cr_touched rc);
  gd_touched : Forall (array_wf 20) (cr_touched rc);
  gd_logs : Forall bytes_ok (cr_logs rc)
}.

Lemma gs_commit_fp e g l fp g' : fp_ok (gs_storage g) -> gs_commit e g = (Ok (l, fp), g') -> bit_fp fp.
Proof.
  intros F. unfold gs_commit, gs_commit_raw, gbind. destruct (commit e (gs_storage g)) as [o s] eqn:E. apply commit_fp in E; [|exact F].
  destruct E as [_ E]. destruct o as [[id fp']|[]|]; cbn [lift]; try discriminate.
  destruct (layer_of id); cbn [gsome]; unfold gret, gpanic; try discriminate. intros [= _ <- _]. exact (E id fp' eq_refl).
Qed.

Lemma exec_good e en cl g r g' : iterates e -> collision_free e -> engine_wf en -> engine_texts en ->
  live e g -> array_wf 20 (cl_target cl) -> array_wf 20 (cl_template cl) -> string_wf 255 (cl_func cl) -> bytes_ok (cl_input cl) ->
  exec e en cl g = (r, g') -> match r with Ok rc => good_receipt rc | Err x => fails_well x | Panic => True end.
Proof.
  intros HI HC HE HT HL Ht Htm Hn Hin. unfold exec, load_template.
  unfold sbind at 1. destruct (@unwrap_read failure _ (account_load e (cl_target cl)) g (reads_load e _)) as [(a1 & E1 & R1)|[E1 R1]];
    rewrite R1; [|now intros [= <- <-]].
  unfold sbind at 1. destruct (@unwrap_read failure _ (account_template e (cl_target cl)) g) as [(t & E2 & R2)|[E2 R2]];
    [apply reads_bind; [apply reads_decode|intros; apply reads_ret]|rewrite R2|rewrite R2; now intros [= <- <-]].
  unfold sbind at 1. destruct (@unwrap_read failure _ (template_sections e t) g (reads_sections e t)) as [(l & E3 & R3)|[E3 R3]];
    rewrite R3; [|now intros [= <- <-]].
  unfold sbind at 1. rewrite R1. unfold sbind at 1. pose proof (load_addr _ _ _ _ E1) as Ea.
  destruct (run e en cl l (env_new a1 (cl_template cl) (cl_mode cl)) g) as [o g1] eqn:Er.
  apply run_tidy in Er; auto; [|apply tidy_new; [now rewrite Ea|exact Htm]]. destruct Er as [HL1 Er].
  destruct o as [[[mem logs] f]|x|]; [|now intros [= <- <-]..]. destruct Er as (Hm & Hlg & T).
  unfold outcome_to_receipt. unfold sbind at 1. destruct (take_returndata f mem) as [data|] eqn:ED; cbn [ssome]; [|now intros [= <- <-]].
  unfold sret at 1. unfold sbind at 1, commit_changes. unfold sbind at 1. destruct (can_write f); cbn [sassert]; [|now intros [= <- <-]].
  unfold sret at 1. unfold sbind at 1, sunwrap at 1.
  assert (F1 : fp_ok (gs_storage (snd (gs_checkpoint e g1)))).
  { pose proof (live_fp e g1 HL1) as F. unfold gs_checkpoint. cbn [snd gs_storage]. exact (exec_fp e Checkpoint (gs_storage g1) F). }
  destruct (gs_checkpoint e g1) as [[?|?|] g2]; [|now intros [= <- <-]..]. cbn [snd] in F1.
  unfold sbind at 1, sunwrap at 1. destruct (gs_commit e g2) as [[[ly st]|?|] g3] eqn:EC; [|now intros [= <- <-]..].
  unfold sret. intros [= <- <-]. apply gs_commit_fp in EC; [|exact F1]. split; cbn; auto; try apply T.
  - exists st. split; [reflexivity|now apply bit_array].
  - exists data. split; [reflexivity|]. unfold take_returndata in ED. destruct (fe_returndata f) as [[off len]|]; [|injection ED as <-; constructor].
    destruct (0 <? len); [|discriminate]. eapply read_ok; eauto.
Qed.

Lemma account_template_wf e a g t : iterates e -> collision_free e -> live e g -> array_wf 20 a ->
  fst (account_template e a g) = Ok t -> array_wf 20 t.
Proof.
  intros HI HC HL Ha. pose proof (live_typed e g HI HC HL) as HT. destruct HL as [_ HP]. unfold account_template, gbind.
  destruct (read_data_cases e a g HT Ha HP) as [(d & bs & W & _ & _ & E)|[_ E]]; rewrite E; [|discriminate]. cbn [gret fst]. intros [= <-]. apply W.
Qed.

(** A receipt of a call or verification. *)
Definition call_good (rc : call_receipt) : Prop :=
  good_receipt rc \/ exists er logs, rc = call_from_err er logs /\ fails_well (er, logs).

Lemma exec_call_good e en cl g rc g' : iterates e -> collision_free e -> engine_wf en -> engine_texts en ->
  live e g -> array_wf 20 (cl_target cl) -> array_wf 20 (cl_template cl) -> string_wf 255 (cl_func cl) -> bytes_ok (cl_input cl) ->
  exec_call e en cl g = (Some rc, g') -> call_good rc.
Proof.
  intros HI HC HE HT HL Ht Htm Hn Hin. unfold exec_call. destruct (exec e en cl g) as [r g1] eqn:E. apply exec_good in E; auto.
  destruct r as [rc'|[er logs]|]; intros [= <- <-]; [left; exact E|right; eauto].
Qed.

Lemma transact_good e en tx m name input g rc g' : iterates e -> collision_free e -> engine_wf en -> engine_texts en ->
  live e g -> array_wf 20 (tx_target tx) -> string_wf 255 name -> bytes_ok input ->
  transact e en tx m name input g = (Some rc, g') -> call_good rc.
Proof.
  intros HI HC HE HT HL Ht Hn Hin. unfold transact.
  destruct (build_call_reads e tx m name input g) as [(cl & -> & _ & En & Et & Ei & _ & Ea)| ->]; [|discriminate].
  intros H. apply exec_call_good in H; auto; try congruence. eapply account_template_wf; eauto.
Qed.

Lemma verify_name : string_wf 255 RuntimeModel.svm_verify.
Proof. split; [split; [vm_compute; discriminate|apply bytes_okb_ok; reflexivity]|reflexivity]. Qed.

Definition spawn_good (rc : spawn_receipt) : Prop :=
  (exists c a, good_receipt c /\ array_wf 20 a /\ into_spawn_receipt c a = Some rc)
  \/ exists er logs, rc = spawn_from_err er logs /\ fails_well (er, logs).

Lemma spawn_receipts e en ev m c g rc c' g' : iterates e -> collision_free e -> hash_wf e -> engine_wf en -> engine_texts en ->
  live e g -> array_wf 20 (env_principal ev) -> bytes_ok m -> spawn e en ev m c g = (Some rc, c', g') -> spawn_good rc.
Proof.
  intros HI HC HH HE HT HL Hp Hm. unfold spawn. destruct (decoded dec_spawn m) as [sp|] eqn:Ed; [|discriminate].
  assert (Hsp : spawn_wf sp) by (eapply decoded_canon; eauto using spawn_canon). destruct Hsp as [S1 S2 S3 S4 S5].
  pose proof (reads_sections e (sp_template sp) g) as R1.
  destruct (template_sections e (sp_template sp) g) as [[l|?|] g0]; cbn [snd] in R1; subst; try discriminate.
  unfold ensure_ctor, sbind. destruct (is_ctor l (sp_ctor sp)) as [[]|]; cbn [ssome]; unfold sret, serr, spanic; try discriminate.
  2:{ intros [= <- _ _]. right. do 2 eexists. split; [reflexivity|]. split; [split; auto|constructor]. }
  destruct (check_gas_for_func _ _ _ _ _ _) as [[[n|]|] c1]; try discriminate.
  2:{ intros [= <- _ _]. right. do 2 eexists. split; [reflexivity|]. split; [exact I|constructor]. }
  set (new := account_addr e (sp_template sp)). assert (Hnew : array_wf 20 new) by now apply addr_wf.
  assert (HL1 : live e (snd (account_create e new (sp_name sp) (sp_template sp) 0 0 g))).
  { apply create_live; auto; reflexivity. }
  destruct (account_create e new _ _ 0 0 g) as [[a|?|] g1]; try discriminate. cbn [snd] in HL1.
  unfold call_ctor. set (cl := mkCall _ _ _ _ _ _).
  destruct (exec_call e en cl g1) as [[rc1|] g2] eqn:Ex; [|discriminate].
  apply exec_call_good in Ex; auto; [|apply S5].
  destruct Ex as [[G1 G2 G3 G4 G5 G6 G7 G8 G9]|(er & logs & -> & F)].
  - intros H. left. eexists (mkCallReceipt _ _ _ _ _ _ _ _), new. split; [|split; [exact Hnew|injection H as H _ _; exact H]].
    split; cbn; auto.
    + now apply set_insert_once, set_insert_once.
    + apply set_insert_all; [exact Hp|]. apply set_insert_all; [exact Hnew|exact G8].
  - intros H. right. exists er, logs. split; [|exact F]. cbn in H. now injection H as <- _ _.
Qed.

(** ** What can be sent *)
Lemma logs_sent ls : Forall bytes_ok ls -> (logs_fit ls -> logs_wf ls) /\ (~ logs_fit ls -> enc_logs ls = None).
Proof.
  intros B. split.
  - intros [L F]. split; [exact L|]. rewrite Forall_forall in *. intros x Hx. split; [now apply F|now apply B].
  - intros N. unfold enc_logs. destruct (N.leb_spec (nlen ls) u8_max) as [L|]; [|reflexivity].
    assert (X : enc_seq enc_log ls = None); [|now rewrite X].
    assert (K : ~ Forall (fun l => nlen l <= 65535) ls) by (intros F; apply N; split; [exact L|exact F]).
    clear -K. induction ls as [|x ls IH]; [exfalso; apply K; constructor|]. cbn [enc_seq]. unfold enc_log at 1.
    destruct (N.leb_spec (nlen x) u16_max) as [L|]; [|reflexivity]. cbn [obind]. rewrite IH; [reflexivity|]. intros F. apply K. constructor; [exact L|exact F].
Qed.
Lemma error_sent er : error_texts er -> (error_fit (Some er) -> error_wf er) /\ (~ error_fit (Some er) -> enc_err_body er = None).
Proof.
  intros T. destruct er; cbn [error_texts error_fit error_wf] in *; (split; [intros F|intros N]); try tauto.
  - destruct T as (A & B & U1 & U2). repeat split; try apply A; try apply B; auto.
  - apply enc_err_body_none. lia.
  - destruct T as (A & B & U1 & U2). repeat split; try apply A; try apply B; auto.
  - apply enc_err_body_none. lia.
  - destruct T as (A & B & C & U1 & U2). split; [exact A|]. split; [exact B|]. split; [exact C|]. split; [exact U1|]. auto.
  - apply enc_err_body_none. right. destruct T as (A & B & C & U1 & U2). destruct (N.ltb_spec 255 (nlen msg)) as [L|L].
    + split; [exact L|]. now destruct (utf8_valid (firstn 255 msg)).
    + exfalso. apply N. rewrite firstn_all2; [exact U2|]. unfold nlen in L. lia.
Qed.
Lemma logs_fit_dec ls : logs_fit ls \/ ~ logs_fit ls.
Proof.
  unfold logs_fit. destruct (N.le_gt_cases (nlen ls) 255); [|right; lia].
  destruct (Forall_dec (fun l : bytes => nlen l <= 65535)) with (l := ls); [|tauto..].
  intros x. destruct (N.leb (nlen x) 65535) eqn:E; [left; now apply N.leb_le|right; apply N.leb_gt in E; lia].
Qed.
Lemma failure_sent er logs : fails_well (er, logs) ->
  (logs_fit logs /\ error_fit (Some er) -> logs_wf logs /\ error_wf er)
  /\ (~ (logs_fit logs /\ error_fit (Some er)) -> enc_failure er logs = None).
Proof.
  intros [T B]. cbn [fst snd] in *. destruct (logs_sent logs B) as [L1 L2]. destruct (error_sent er T) as [E1 E2]. split; [tauto|].
  intros N. unfold enc_failure. destruct (logs_fit_dec logs) as [F|F]; [|now rewrite (L2 F)].
  destruct (enc_logs logs); [|reflexivity]. cbn [obind]. rewrite E2; [reflexivity|]. tauto.
Qed.
Lemma call_sent rc : call_good rc ->
  (fits (RCall rc) -> receipt_wf (RCall rc)) /\ (~ fits (RCall rc) -> enc_receipt (RCall rc) = None).
Proof.
  intros [[G1 G2 G3 (st & G4 & G4') (d & G5 & G5') G6 G7 G8 G9]|(er & logs & -> & F)].
  - cbn [fits receipt_wf enc_receipt]. unfold call_receipt_wf, enc_call_receipt. rewrite G1, G2, G3, G4, G5, G6. cbn [error_fit data_fit].
    destruct (logs_sent _ G9) as [L1 L2]. split.
    + intros (A & B & C & _). split; [reflexivity|]. split; [now apply L1|]. split; [reflexivity|]. split; [eauto|].
      split; [exists d; split; [reflexivity|split; [exact B|exact G5']]|]. split; [exact I|]. split; [exact C|]. split; [exact G7|exact G8].
    + intros N. destruct (enc_u16 0); [|reflexivity]. cbn [obind]. destruct (enc_bool true); [|reflexivity]. cbn [obind].
      destruct (enc_array st); [|reflexivity]. cbn [obind]. unfold enc_return, enc_data. destruct (N.ltb_spec (nlen d) (256 ^ N.of_nat 2)) as [Ld|]; [|reflexivity]. change (256 ^ N.of_nat 2) with 65536 in Ld. cbn [obind].
      destruct (enc_gas None); [|reflexivity]. cbn [obind]. unfold enc_touched. destruct (N.leb_spec (nlen (cr_touched rc)) u16_max) as [Lt|]; [|reflexivity]. cbn [obind].
      rewrite L2; [reflexivity|]. intros F. apply N. split; [exact F|]. split; [lia|]. split; [exact Lt|exact I].
  - cbn [fits receipt_wf enc_receipt call_from_err cr_logs cr_returndata cr_touched cr_error data_fit]. destruct (failure_sent er logs F) as [A B].
    change (nlen (@nil bytes) <= 65535) with (0 <= 65535). split.
    + intros (L & _ & _ & E). destruct (A (conj L E)) as [L' E']. split; [reflexivity|]. split; [exact L'|]. exists er. auto.
    + intros N. unfold enc_call_receipt. cbn [call_from_err cr_version cr_success cr_error cr_logs]. destruct (enc_u16 0); [|reflexivity]. cbn [obind]. destruct (enc_bool false); [|reflexivity]. cbn [obind]. rewrite B; [reflexivity|]. intros [L E]. apply N. split; [exact L|].
      split; [exact I|]. split; [discriminate|exact E].
Qed.
Lemma spawn_sent rc : spawn_good rc ->
  (fits (RSpawn rc) -> receipt_wf (RSpawn rc)) /\ (~ fits (RSpawn rc) -> enc_receipt (RSpawn rc) = None).
Proof.
  intros [(c & a & [G1 G2 G3 (st & G4 & G4') (d & G5 & G5') G6 G7 G8 G9] & Ha & H)|(er & logs & -> & F)].
  - unfold into_spawn_receipt in H. rewrite G2 in H. injection H as <-.
    cbn [fits receipt_wf enc_receipt]. unfold spawn_receipt_wf, enc_spawn_receipt.
    cbn [sr_version sr_success sr_error sr_account sr_init_state sr_returndata sr_gas_used sr_touched sr_logs]. rewrite G4, G5, G6. cbn [error_fit data_fit].
    destruct (logs_sent _ G9) as [L1 L2]. split.
    + intros (A & B & C & _). split; [reflexivity|]. split; [now apply L1|]. split; [reflexivity|]. split; [eauto|]. split; [eauto|].
      split; [exists d; split; [reflexivity|split; [exact B|exact G5']]|]. split; [exact I|]. split; [exact C|]. split; [exact G7|exact G8].
    + intros N. destruct (enc_u16 0); [|reflexivity]. cbn [obind]. destruct (enc_bool true); [|reflexivity]. cbn [obind].
      destruct (enc_array a); [|reflexivity]. cbn [obind].
      destruct (enc_array st); [|reflexivity]. cbn [obind]. unfold enc_return, enc_data. destruct (N.ltb_spec (nlen d) (256 ^ N.of_nat 2)) as [Ld|]; [|reflexivity]. change (256 ^ N.of_nat 2) with 65536 in Ld. cbn [obind].
      destruct (enc_gas None); [|reflexivity]. cbn [obind]. unfold enc_touched. destruct (N.leb_spec (nlen (cr_touched c)) u16_max) as [Lt|]; [|reflexivity]. cbn [obind].
      rewrite L2; [reflexivity|]. intros F. apply N. split; [exact F|]. split; [lia|]. split; [exact Lt|exact I].
  - cbn [fits receipt_wf enc_receipt spawn_from_err sr_logs sr_returndata sr_touched sr_error data_fit]. destruct (failure_sent er logs F) as [A B].
    change (nlen (@nil bytes) <= 65535) with (0 <= 65535). split.
    + intros (L & _ & _ & E). destruct (A (conj L E)) as [L' E']. split; [reflexivity|]. split; [exact L'|]. exists er. auto.
    + intros N. unfold enc_spawn_receipt. cbn [spawn_from_err sr_version sr_success sr_error sr_logs]. destruct (enc_u16 0); [|reflexivity]. cbn [obind]. destruct (enc_bool false); [|reflexivity]. cbn [obind]. rewrite B; [reflexivity|]. intros [L E]. apply N. split; [exact L|].
      split; [exact I|]. split; [discriminate|exact E].
Qed.

Lemma no_template : decoded (dec_sections None) [] = None. Proof. reflexivity. Qed.
Lemma deploy_sent e ev m g rc g' : iterates e -> collision_free e -> hash_wf e -> live e g -> bytes_ok m -> nlen m < 2 ^ 32 ->
  deploy e ev m g = (Some rc, g') -> receipt_wf (RDeploy rc).
Proof.
  intros HI HC HH HL Hm Ln E. apply deploy_cases in E; auto.
  destruct E as [_ [[E _]|[(_ & E & _)|(l & c & D & _ & _ & E & _)]]]; [discriminate| |]; apply Some_inj in E; subst rc;
    (split; [reflexivity|]); (split; [split; [discriminate|constructor]|]); cbn [deploy_new deploy_from_err dr_success dr_error dr_addr dr_gas_used gas_wf].
  - eexists. split; [reflexivity|exact I].
  - split; [reflexivity|]. split; [eexists; split; [reflexivity|now apply addr_wf]|].
    assert (m <> []) by (intros ->; rewrite no_template in D; discriminate).
    assert (0 < nlen m) by (destruct m; [congruence|rewrite nlen_cons; lia]). unfold uint_wf. change (2 ^ 64) with 18446744073709551616. change (2 ^ 32) with 4294967296 in Ln. split; lia.
Qed.

Lemma executed_sent w t ev m g c rc g' c' : world_wf w -> engine_texts (w_engine w) -> live (w_env w) g -> envelope_wf ev -> bytes_ok m -> nlen m < 2 ^ 32 ->
  execute w t ev m g c = (Some rc, g', c') -> (fits rc -> receipt_wf rc) /\ (~ fits rc -> enc_receipt rc = None).
Proof.
  intros (HI & HC & HH & HE & _) HT HL He Hm Ln. destruct t; cbn [execute].
  - destruct (deploy (w_env w) ev m g) as [[d|] g1] eqn:E; [|discriminate]. intros [= <- _ _]. split; [|intros N; exfalso; exact (N I)].
    intros _. eapply deploy_sent; eauto.
  - destruct (spawn (w_env w) (w_engine w) ev m c g) as [[[d|] c1] g1] eqn:E; [|discriminate]. intros [= <- _ _]. apply spawn_sent.
    eapply spawn_receipts; eauto. apply He.
  - destruct (RuntimeModel.verify (w_env w) (w_engine w) m g) as [[d|] g1] eqn:E; [|discriminate]. intros [= <- _ _]. apply call_sent.
    unfold RuntimeModel.verify in E. destruct (decoded dec_transaction m) as [tx|] eqn:D; [|discriminate].
    assert (Hw : transaction_wf tx) by (eapply decoded_canon; eauto using transaction_canon). destruct Hw as [S1 S2 S3 S4 S5].
    eapply transact_good; [..|exact E]; auto using verify_name. apply S4.
  - destruct (rt_call (w_env w) (w_engine w) m g) as [[d|] g1] eqn:E; [|discriminate]. intros [= <- _ _]. apply call_sent.
    unfold rt_call in E. destruct (decoded dec_transaction m) as [tx|] eqn:D; [|discriminate].
    assert (Hw : transaction_wf tx) by (eapply decoded_canon; eauto using transaction_canon). destruct Hw as [S1 S2 S3 S4 S5].
    eapply transact_good; [..|exact E]; auto. apply S5.
Qed.

Lemma fits_dec rc : fits rc \/ ~ fits rc.
Proof.
  assert (L : forall a b : N, a <= b \/ ~ a <= b) by (intros; lia).
  assert (D : forall d, data_fit d \/ ~ data_fit d) by (intros [d|]; cbn [data_fit]; auto).
  assert (E : forall e, error_fit e \/ ~ error_fit e).
  { intros [[]|]; cbn [error_fit]; auto. destruct (utf8_valid (firstn 255 msg)); [left; reflexivity|right; discriminate]. }
  destruct rc as [r|r|r]; cbn [fits]; auto.
  - destruct (logs_fit_dec (sr_logs r)), (D (sr_returndata r)), (L (nlen (sr_touched r)) 65535), (E (sr_error r)); tauto.
  - destruct (logs_fit_dec (cr_logs r)), (D (cr_returndata r)), (L (nlen (cr_touched r)) 65535), (E (cr_error r)); tauto.
Qed.

Lemma executed_version w t ev m g c rc g' c' : world_wf w -> engine_texts (w_engine w) -> live (w_env w) g -> envelope_wf ev -> bytes_ok m -> nlen m < 2 ^ 32 ->
  execute w t ev m g c = (Some rc, g', c') -> receipt_version rc = 0.
Proof.
  intros (HI & HC & HH & HE & _) HT HL He Hm Ln. destruct t; cbn [execute].
  - destruct (deploy (w_env w) ev m g) as [[d|] g1] eqn:E; [|discriminate]. intros [= <- _ _]. eapply deploy_sent in E; eauto. apply E.
  - destruct (spawn (w_env w) (w_engine w) ev m c g) as [[[d|] c1] g1] eqn:E; [|discriminate]. intros [= <- _ _].
    eapply spawn_receipts in E; eauto; [|apply He].
    destruct E as [(r & a & [] & _ & E)|(er & logs & -> & _)]; [|reflexivity]. unfold into_spawn_receipt in E.
    destruct (cr_success r); [|discriminate]. now injection E as <-.
  - destruct (RuntimeModel.verify (w_env w) (w_engine w) m g) as [[d|] g1] eqn:E; [|discriminate]. intros [= <- _ _].
    unfold RuntimeModel.verify in E. destruct (decoded dec_transaction m) as [tx|] eqn:D; [|discriminate].
    assert (Hw : transaction_wf tx) by (eapply decoded_canon; eauto using transaction_canon). destruct Hw as [S1 S2 S3 S4 S5].
    eapply transact_good in E; auto using verify_name; [|apply S4]. destruct E as [[]|(er & logs & -> & _)]; auto.
  - destruct (rt_call (w_env w) (w_engine w) m g) as [[d|] g1] eqn:E; [|discriminate]. intros [= <- _ _].
    unfold rt_call in E. destruct (decoded dec_transaction m) as [tx|] eqn:D; [|discriminate].
    assert (Hw : transaction_wf tx) by (eapply decoded_canon; eauto using transaction_canon). destruct Hw as [S1 S2 S3 S4 S5].
    eapply transact_good in E; auto; [|apply S5]. destruct E as [[]|(er & logs & -> & _)]; auto.
Qed.

(** ** Through the C interface *)
Lemma unsent w t ev v ctx c m r rc g cache : envelope_wf ev -> enc_envelope ev = Some v -> context_wf ctx -> enc_context ctx = Some c ->
  rn_poisoned r = false -> execute w t ev m (rn_gs r) (rn_cache r) = (Some rc, g, cache) -> enc_receipt rc = None ->
  fst (serve w (submit t v m c) r) = RError.
Proof.
  intros We Ee Wc Ec P X N. pose proof (decoded_envelope ev v We Ee) as De. pose proof (decoded_context ctx c Wc Ec) as Dc.
  destruct t; cbn [submit serve execute] in *; unfold FfiModel.svm_deploy, FfiModel.svm_spawn, FfiModel.svm_verify, svm_call, svm_runtime_action, locked;
    rewrite De, Dc, P.
  - destruct (deploy (w_env w) ev m (rn_gs r)) as [[d|] g1]; [|discriminate]. injection X as <- _ _. cbn [fst]. unfold answer. cbn [enc_receipt] in N. now rewrite N.
  - destruct (spawn (w_env w) (w_engine w) ev m (rn_cache r) (rn_gs r)) as [[[d|] c1] g1]; [|discriminate]. injection X as <- _ _. cbn [fst]. unfold answer. cbn [enc_receipt] in N. now rewrite N.
  - destruct (RuntimeModel.verify (w_env w) (w_engine w) m (rn_gs r)) as [[d|] g1]; [|discriminate]. injection X as <- _ _. cbn [fst]. unfold answer. cbn [enc_receipt] in N. now rewrite N.
  - destruct (rt_call (w_env w) (w_engine w) m (rn_gs r)) as [[d|] g1]; [|discriminate]. injection X as <- _ _. cbn [fst]. unfold answer. cbn [enc_receipt] in N. now rewrite N.
Qed.

(** ** Validation *)
Lemma decoded_starts {A} (enc : encoder A) (d : decoder A) wf m : canonical enc d wf -> (forall x, wf x -> round_trips enc d x) -> bytes_ok m ->
  (decoded d m <> None <-> starts_with enc wf m).
Proof.
  intros C R B. unfold decoded. split.
  - destruct (d m) as [[x rest]|?|] eqn:E; try congruence. intros _. destruct (C m x rest B E) as (W & b & Eb & ->). exists x, b, rest. auto.
  - intros (x & b & rest & W & E & ->). destruct (R x W) as (b' & Eb & D). rewrite E in Eb. injection Eb as <-. rewrite D. discriminate.
Qed.
