(** C115: from the document of a call to the document of its receipt. *)
From Coq Require Import String List NArith ZArith Bool Lia ZifyBool ZifyNat ZifyN.
From Verif Require Import Base Text CodecModel CodecSpec CodecProofs ReceiptModel ReceiptSpec ReceiptProofs.
From Verif Require Import SectionModel SectionSpec SectionProofs StorageModel StorageSpec StorageProofs.
From Verif Require Import GlobalModel GlobalSpec GlobalProofs RuntimeModel RuntimeSpec RuntimeProofs RuntimeProps.
From Verif Require Import SdkModel AbiModel AbiSpec AbiProofs TypedModel TypedProofs EndpointModel EndpointSpec EndpointProofs EndpointProps.
From Verif Require Import FfiModel FfiSpec FfiProofs FfiProps AnswerSpec AnswerProofs AnswerProps.
From Verif Require Import JsonModel JsonSpec JsonProofs JsonProps TripSpec TripProofs.
Import ListNotations.
Open Scope list_scope.
Open Scope N_scope.

(** ** C115 A call in JSON, answered in JSON *)

(** Whatever was done through the C interface before: the document of a call of a function of an
    account whose template was made with the SDK is encoded as a message.  If the interface
    answers to that message with a receipt whose document says "success", then the document
    has returned bytes which decode to the document of the values that the function's body,
    entered with exactly the arguments of the first document, returned.
    Missing: parameters that are arrays; returned options, units, empty arrays and arrays of
    eight elements; returned addresses that stand where the answer is written (see C99). *)
Theorem C115_call_partial :
  forall w tr lb p r ev v ctx c j target name ts args rts code body Q,
  world_wf w -> engine_texts (w_engine w) -> Forall (fun x => capi_wf (fst x)) tr -> answered w library_start tr lb ->
  behind lb p = Some r -> rn_poisoned r = false ->
  envelope_wf ev -> enc_envelope ev = Some v -> context_wf ctx -> enc_context ctx = Some c ->
  call_document j target name ts args ->
  has_code (w_env w) (rn_gs r) target code -> compiled (w_engine w) code name ts (Some rts) body ->
  Forall presentable rts ->
  answers (w_env w) body args (nlen (flat_map prim_format args)) rts Q ->
  exists m, encode_call j = Ok (data_doc m) /\
  forall data lb' doc,
    capi_step w (COn p (QCall v m c)) lb = (RReceipt data, lb') ->
    decode_receipt (data_doc data) = Ok doc -> field "success" doc (JBool true) ->
    exists vs rd, hex "returndata" doc rd /\ decode_inputdata (data_doc rd) = Ok (values_doc rts vs)
      /\ Forall2 typed rts vs /\ Q vs.
Proof.
  intros w tr lb p r ev v ctx c j target name ts args rts code body Q HW HT HF HA B P We Ee Wc Ec HJ Hc Hx Pr An.
  destruct (document_encoded j target name ts args HJ) as (T & t & m & Ej & Bm & Lm & Dm & Et & En & Ed).
  exists m. split; [exact Ej|]. intros data lb' doc X D S.
  destruct (call_answered w lb p r ev v ctx c m data lb' B P We Ee Wc Ec X) as (rc & g & Er & Edata).
  assert (HR : rt_reachable (w_env w) (w_engine w) (rn_gs r) (rn_cache r)) by exact (C84_behind_handles w tr lb p r HW HF HA B).
  assert (Ex : execute w TxCall ev m (rn_gs r) (rn_cache r) = (Some (RCall rc), g, rn_cache r)) by (cbn [execute]; now rewrite Er).
  destruct (C109_receipts w TxCall ev m _ _ (RCall rc) g (rn_cache r) HW HT HR We Bm Lm Ex) as (_ & [F _] & [_ Nf] & _).
  assert (W : receipt_wf (RCall rc)) by (apply F, Nf; now exists data).
  pose proof (decoded_shows (RCall rc) data doc W Edata D) as (_ & Sf & Sh). cbn [succeeded] in Sf.
  pose proof (field_fun _ _ _ _ S Sf) as Es. injection Es as Es.
  unfold rt_call in Er. rewrite Dm in Er. unfold transact in Er.
  destruct (build_call_reads (w_env w) t FullAccess (tx_func_name t) (tx_calldata t) (rn_gs r)) as [(cl & Eb & _ & Ef & Etg & Ei & _)|Eb]; rewrite Eb in Er; [|discriminate Er].
  rewrite Et in Etg. rewrite En in Ef. rewrite Ed in Ei.
  rewrite <- Etg in Hc. rewrite <- Ef in Hx. rewrite <- Ei in An.
  destruct (success_returned (w_env w) (w_engine w) cl (rn_gs r) rc g code ts rts body args Q Hc Hx T
              ltac:(rewrite Ei; eapply typed_encodes; eauto) An Er (eq_sym Es)) as (vs & Rd & Tv & HQ).
  rewrite <- Es in Sh. destruct Sh as (_ & Sr & _). exists vs, (flat_map format (map rust_value vs)). split; [now apply Sr|].
  split; [now apply values_shown|]. auto.
Qed.
Print Assumptions C115_call_partial.
(** So a client that calls a function which returns all its arguments gets back the document
    that it sent, when that is spelled the usual way. *)
Theorem C115_echo_partial :
  forall w tr lb p r ev v ctx c j target name ts args ds code,
  world_wf w -> engine_texts (w_engine w) -> Forall (fun x => capi_wf (fst x)) tr -> answered w library_start tr lb ->
  behind lb p = Some r -> rn_poisoned r = false ->
  envelope_wf ev -> enc_envelope ev = Some v -> context_wf ctx -> enc_context ctx = Some c ->
  call_document j target name ts args ->
  field "calldata" j (JObj [(txt "abi", JArr (map (fun t => JStr (type_name t)) ts)); (txt "data", JArr ds)]) ->
  Forall2 normal_prim ts ds -> zip_reads (map TPrim ts) ds (map VPrim args) ->
  has_code (w_env w) (rn_gs r) target code ->
  compiled (w_engine w) code name ts (Some (map YPrim ts)) (fun hs => cret (map HVal hs)) ->
  exists m, encode_call j = Ok (data_doc m) /\
  forall data lb' doc,
    capi_step w (COn p (QCall v m c)) lb = (RReceipt data, lb') ->
    decode_receipt (data_doc data) = Ok doc -> field "success" doc (JBool true) ->
    exists rd, hex "returndata" doc rd /\
      forall d, field "calldata" j d -> decode_inputdata (data_doc rd) = Ok d.
Proof.
  intros w tr lb p r ev v ctx c j target name ts args ds code HW HT HF HA B P We Ee Wc Ec HJ Fc Nm Z Hc Hx.
  destruct (document_encoded j target name ts args HJ) as (T & _).
  assert (T' : Forall2 typed (map YPrim ts) (map RPrim args)) by (clear -T; induction T; constructor; auto).
  assert (An : answers (w_env w) (fun hs => cret (map HVal hs)) args (nlen (flat_map prim_format args)) (map YPrim ts) (fun vs => vs = map RPrim args)).
  { intros hs mem f g0 rs mem' f' g1 [D Bl] L E. cbn [cret run_wasm] in E. injection E as <- <- <- <-. exists (map RPrim args). split; [exact T'|].
    split; [clear -D; induction D; constructor; auto|]. split; [|auto]. apply Forall_map. eapply Forall_impl; [|exact Bl].
    pose proof (tuple_max _ _ T') as M. rewrite formats_values in M. unfold formats in M.
    intros h; destruct h; cbn [below held_below]; auto. lia. }
  destruct (C115_call_partial w tr lb p r ev v ctx c j target name ts args (map YPrim ts) code _ _ HW HT HF HA B P We Ee Wc Ec HJ Hc Hx
              ltac:(apply Forall_map, Forall_forall; intros; exact Logic.I) An) as (m & Ej & H).
  exists m. split; [exact Ej|]. intros data lb' doc X D S. destruct (H data lb' doc X D S) as (vs & rd & Hr & Hd & _ & ->).
  exists rd. split; [exact Hr|]. intros d Fd. rewrite (field_fun _ _ _ _ Fd Fc). rewrite Hd. unfold values_doc. do 2 f_equal. rewrite !map_map.
  assert (E : map (fun x => show_rust (RPrim x)) args = ds); [|now rewrite E].
  clear -Nm Z. revert args Z. induction Nm as [|t d ts ds Hn _ IH]; intros [|a args] Z; try contradiction Z; [reflexivity|].
  cbn [map]. f_equal; [|apply IH, Z]. cbn [show_rust]. eapply normal_prim_shown; [exact Hn|apply Z].
Qed.
Print Assumptions C115_echo_partial.

(** ** C116 An account spawned in JSON, and then called in JSON *)

(** The document of a spawn of a template made with the SDK is encoded as a message.  If the
    interface answers to it with a receipt whose document says "success", that document shows an
    account which now has the name and the template of the first document, and the
    fingerprint of the state that is now the current one; and, if the constructor returns
    values, bytes that decode to the document of the values which its body returned to exactly
    the arguments of the first document.
    Missing: as in C115. *)
Theorem C116_spawn_partial :
  forall w tr lb p r ev v ctx c j template name ctor ts args ret code body,
  world_wf w -> engine_texts (w_engine w) -> Forall (fun x => capi_wf (fst x)) tr -> answered w library_start tr lb ->
  behind lb p = Some r -> rn_poisoned r = false ->
  envelope_wf ev -> enc_envelope ev = Some v -> context_wf ctx -> enc_context ctx = Some c ->
  spawn_document j template name ctor ts args ->
  template_code (w_env w) (rn_gs r) template code -> compiled (w_engine w) code ctor ts ret body ->
  exists m, encode_spawn j = Ok m /\ bytes_ok m /\
  forall data lb' doc,
    capi_step w (COn p (QSpawn v m c)) lb = (RReceipt data, lb') ->
    decode_receipt (data_doc data) = Ok doc -> field "success" doc (JBool true) ->
    exists a st r', hex "account" doc a /\ hex "state" doc st
      /\ behind lb' p = Some r' /\ rn_poisoned r' = false /\ committed_with (rn_gs r') (Some st)
      /\ fst (account_name (w_env w) a (rn_gs r')) = Ok name
      /\ fst (account_template (w_env w) a (rn_gs r')) = Ok template
      /\ has_code (w_env w) (rn_gs r') a code
      /\ (forall rts Q, ret = Some rts -> Forall presentable rts ->
            answers (w_env w) body args (nlen (flat_map prim_format args)) rts Q ->
            exists vs rd, hex "returndata" doc rd /\ decode_inputdata (data_doc rd) = Ok (values_doc rts vs)
              /\ Forall2 typed rts vs /\ Q vs).
Proof.
  intros w tr lb p r ev v ctx c j template name ctor ts args ret code body HW HT HF HA B P We Ee Wc Ec HJ Hc Hx.
  destruct (spawn_encoded j template name ctor ts args HJ) as (T & Wt & s & m & Ej & Bm & Lm & Dm & Et & En & Ek & Ed).
  exists m. split; [exact Ej|]. split; [exact Bm|]. intros data lb' doc X D S.
  destruct (spawn_answered w lb p r ev v ctx c m data lb' B P We Ee Wc Ec X) as (rc & pc & g & Er & Edata & B').
  assert (HR : rt_reachable (w_env w) (w_engine w) (rn_gs r) (rn_cache r)) by exact (C84_behind_handles w tr lb p r HW HF HA B).
  assert (Ex : execute w TxSpawn ev m (rn_gs r) (rn_cache r) = (Some (RSpawn rc), g, pc)) by (cbn [execute]; now rewrite Er).
  destruct (C109_receipts w TxSpawn ev m _ _ (RSpawn rc) g pc HW HT HR We Bm Lm Ex) as (_ & [F _] & [_ Nf] & _).
  assert (W : receipt_wf (RSpawn rc)) by (apply F, Nf; now exists data).
  pose proof (decoded_shows (RSpawn rc) data doc W Edata D) as (_ & Sf & Sh). cbn [succeeded] in Sf.
  pose proof (field_fun _ _ _ _ S Sf) as Es. injection Es as Es. rewrite <- Es in Sh. destruct Sh as (Sa & Ss & Sr & _).
  pose proof HW as (HI & HC & HH & HE & _). pose proof (rt_live _ _ _ _ HI HC HH HE HR) as HL.
  destruct (spawn_effect _ _ _ _ _ _ _ _ _ HI HC HH HE HL Bm Er (eq_sym Es)) as (s' & Dm' & Ea & _ & _ & Cm & An & At & _ & _ & _ & Se).
  rewrite Dm in Dm'. apply Some_inj in Dm'. subst s'.
  destruct (spawn_executed _ _ _ _ _ _ _ _ _ s HI HC HH HL Bm Dm Er (eq_sym Es)) as (g1 & rc1 & E1 & S1 & R1 & T1 & L1).
  destruct (sr_init_state rc) as [st|] eqn:Est; [|destruct Cm as (lid & fp & Cm & _); discriminate Cm].
  exists (account_addr (w_env w) (sp_template s)), st, (mkRuntime g pc false).
  split; [now apply Sa|]. split; [now apply Ss|]. split; [exact B'|]. split; [reflexivity|]. split; [exact Cm|].
  rewrite En in An. rewrite Et in *. split; [exact An|]. split; [exact At|]. destruct Hc as (l & cs & El & Cl & Eb).
  split.
  { exists template, l, cs. split; [exact At|]. split; [rewrite Se by exact Wt; exact El|]. auto. }
  intros rts Q -> Pr Ans.
  rewrite Ed, Ek in E1. rewrite <- Ed in Ans.
  assert (Hc1 : has_code (w_env w) g1 (account_addr (w_env w) template) code).
  { exists template, l, cs. split; [exact T1|]. split; [rewrite L1; exact El|]. auto. }
  destruct (success_returned (w_env w) (w_engine w) (mkCall ctor (flat_map prim_format args) (account_addr (w_env w) template) template true FullAccess)
              g1 rc1 g code ts rts body args Q Hc1 Hx T
              ltac:(eapply typed_encodes; eauto) ltac:(rewrite Ed in Ans; exact Ans) E1 S1) as (vs & Rd & Tv & HQ).
  exists vs, (flat_map format (map rust_value vs)). split; [apply Sr; now rewrite R1|].
  split; [now apply values_shown|]. auto.
Qed.
Print Assumptions C116_spawn_partial.

(** So the account can be called in JSON right away: the document of a call of the address shown in
    the receipt reaches the code of the template which the account was spawned from. *)
Theorem C116_then_call_partial :
  forall w tr lb p r ev v ctx c j template name ctor ts args ret code body func ts' args' rts body' Q,
  world_wf w -> engine_texts (w_engine w) -> Forall (fun x => capi_wf (fst x)) tr -> answered w library_start tr lb ->
  behind lb p = Some r -> rn_poisoned r = false ->
  envelope_wf ev -> enc_envelope ev = Some v -> context_wf ctx -> enc_context ctx = Some c ->
  spawn_document j template name ctor ts args ->
  template_code (w_env w) (rn_gs r) template code -> compiled (w_engine w) code ctor ts ret body ->
  compiled (w_engine w) code func ts' (Some rts) body' -> Forall presentable rts ->
  answers (w_env w) body' args' (nlen (flat_map prim_format args')) rts Q ->
  exists m, encode_spawn j = Ok m /\
  forall data lb' doc,
    capi_step w (COn p (QSpawn v m c)) lb = (RReceipt data, lb') ->
    decode_receipt (data_doc data) = Ok doc -> field "success" doc (JBool true) ->
    exists a, hex "account" doc a /\
    forall j', call_document j' a func ts' args' ->
    exists m', encode_call j' = Ok (data_doc m') /\
    forall data' lb'' doc',
      capi_step w (COn p (QCall v m' c)) lb' = (RReceipt data', lb'') ->
      decode_receipt (data_doc data') = Ok doc' -> field "success" doc' (JBool true) ->
      exists vs rd, hex "returndata" doc' rd /\ decode_inputdata (data_doc rd) = Ok (values_doc rts vs)
        /\ Forall2 typed rts vs /\ Q vs.
Proof.
  intros w tr lb p r ev v ctx c j template name ctor ts args ret code body func ts' args' rts body' Q HW HT HF HA B P We Ee Wc Ec HJ Hc Hx Hx' Pr Ans.
  destruct (C116_spawn_partial w tr lb p r ev v ctx c j template name ctor ts args ret code body HW HT HF HA B P We Ee Wc Ec HJ Hc Hx)
    as (m & Ej & Bm & K).
  exists m. split; [exact Ej|]. intros data lb' doc X D S.
  destruct (K data lb' doc X D S) as (a & st & r' & Ha & _ & B' & P' & _ & _ & _ & Hc' & _).
  exists a. split; [exact Ha|]. intros j' HJ'.
  refine (C115_call_partial w (tr ++ [(COn p (QSpawn v m c), RReceipt data)]) lb' p r' ev v ctx c j' a func ts' args' rts code body' Q
           HW HT _ _ B' P' We Ee Wc Ec HJ' Hc' Hx' Pr Ans).
  - apply Forall_app. split; [exact HF|]. constructor; [|constructor]. cbn [fst capi_wf request_wf].
    split; [split; [apply (envelope_format ev v We Ee)|eapply enc_envelope_ok; eauto]|]. split; [exact Bm|].
    split; [apply (context_format ctx c Wc Ec)|eapply enc_context_ok; eauto].
  - eapply answered_snoc; eauto.
Qed.
Print Assumptions C116_then_call_partial.

(** A template whose function "f" returns its two arguments, and an account of it. *)
Definition tx_types : list pty := [YAddress; YInt U32].
Definition tx_args : list primitive := [PAddress (repeat 171 20); PInt U32 70000].
Definition tx_echo : list held -> TypedModel.code (list hval) := fun hs => cret (map HVal hs).
Definition tx_engine : engine := px_engine tx_types (Some (map YPrim tx_types)) tx_echo.
Definition tx_world : world :=
  mkWorld rx_env tx_engine (fun _ => Some ProgramProps.ex_module) [(rx_taddr 1, rx_sections 1)] (rx_taddr 1).
Definition tx_ops : list capi := [CInit; CCreate InMemory 16; COn 16 (QGenesisAccount rx_a 50 1 7)].
Definition tx_lib : library := snd (capi_run tx_world tx_ops library_start).
Definition tx_trace : trace := combine tx_ops (fst (capi_run tx_world tx_ops library_start)).
Definition tx_rt : runtime := match behind tx_lib 16 with Some r => r | None => mkRuntime rx_start [] false end.
Definition tx_docs : list json := [JStr (hex_upper (repeat 171 20)); JNum 70000].
Definition tx_doc : json :=
  JObj [(txt "version", JNum 0); (txt "target", JStr (hex_upper rx_a)); (txt "func_name", JStr (txt "f")); (txt "verifydata", JStr []);
        (txt "calldata", JObj [(txt "abi", JArr (map (fun t => JStr (type_name t)) tx_types)); (txt "data", JArr tx_docs)])].
Lemma tx_world_wf : world_wf tx_world.
Proof.
  destruct fx_world_wf as (A & B & C & D & E & F). split; [exact A|]. split; [exact B|]. split; [exact C|]. split; [|split; [exact E|exact F]].
  assert (Z : bytes_ok (repeat 0 300)) by (apply bytes_okb_ok; reflexivity).
  split; [intros code; constructor; exact Z|]. intros i name args mem Hm. cbn [w_engine tx_world tx_engine px_engine en_call].
  assert (W : forall R (P : R -> Prop) (t : wasm R) (f : R -> list N * unit), sound P t -> wasm_wf (wbind t (fun a mem' => WReturn mem' (f a)))).
  { intros R P t f So. eapply sound_wf. eapply (sound_wbind P (fun _ => True)); [exact So|]. intros a mem' _ Hm'. now constructor. }
  destruct (bytes_eqb name RuntimeModel.svm_alloc).
  - apply (W _ _ _ (fun p => ([p], tt)) (sound_call _ mem Hm)).
  - apply (W _ _ _ (fun _ => ([], tt)) (sound_endpoint tx_types _ tx_echo ltac:(intros hs Hs; apply sound_ret; apply Forall_map; exact Hs) mem Hm)).
Qed.
Lemma tx_engine_texts : engine_texts tx_engine.
Proof.
  split; [discriminate|]. split; [intros; constructor|]. intros i name args mem. cbn [tx_engine px_engine en_call].
  destruct (bytes_eqb name RuntimeModel.svm_alloc); (apply texts_wbind; [|intros; constructor]).
  - exact (text_host _ mem).
  - apply text_endpoint. intros hs. exact (text_some (Some _)).
Qed.
Lemma tx_trace_wf : Forall (fun x => capi_wf (fst x)) tx_trace.
Proof.
  enough (G : forall tr : trace, map fst tr = tx_ops -> Forall (fun x => capi_wf (fst x)) tr) by (apply G; vm_compute; reflexivity).
  intros tr L. apply Forall_map. rewrite L. unfold tx_ops.
  constructor; [exact Logic.I|]. constructor; [exact Logic.I|]. constructor; [|constructor]. cbn [capi_wf request_wf].
  split; [exact rx_a_wf|]. repeat split; reflexivity.
Qed.
Lemma tx_answered : answered tx_world library_start tx_trace tx_lib.
Proof.
  unfold answered. replace (map fst tx_trace) with tx_ops by (vm_compute; reflexivity).
  replace (map snd tx_trace) with (fst (capi_run tx_world tx_ops library_start)) by (vm_compute; reflexivity).
  apply surjective_pairing.
Qed.
Lemma tx_document : call_document tx_doc rx_a (txt "f") tx_types tx_args /\ zip_reads (map TPrim tx_types) tx_docs (map VPrim tx_args).
Proof.
  assert (Z : zip_reads (map TPrim tx_types) tx_docs (map VPrim tx_args)).
  { split; [apply value_spec; vm_compute; reflexivity|]. split; [apply value_spec; vm_compute; reflexivity|exact Logic.I]. }
  split; [|exact Z]. split; [exists 0; split; [eexists; split; reflexivity|reflexivity]|].
  split; [exists (hex_upper rx_a); split; [eexists; split; reflexivity|]; split; [apply spelled_upper, rx_a_wf|reflexivity]|].
  split; [eexists; split; reflexivity|]. split; [split; [split; [vm_compute; discriminate|apply bytes_okb_ok; reflexivity]|reflexivity]|].
  split; [exists (JStr []), []; split; [eexists; split; reflexivity|]; split; [left; exists []; split; [reflexivity|exact Logic.I]|vm_compute; discriminate]|].
  eexists _, tx_docs. split; [eexists; split; reflexivity|]. split; [|split; [reflexivity|split; [exact Z|vm_compute; discriminate]]].
  eexists. split; [eexists; split; reflexivity|]. split; [|eexists; split; reflexivity]. repeat constructor.
Qed.
(** The answer: a receipt whose document shows the document of the arguments. *)
Definition tx_reply : outcome json_error json :=
  let* d := encode_call tx_doc in
  let* m := get_field hex_of_json d "data" in
  match capi_step tx_world (COn 16 (QCall fx_env_bytes m fx_ctx_bytes)) tx_lib with
  | (RReceipt data, _) => decode_receipt (data_doc data)
  | _ => Panic
  end.
Example C115_satisfiable :
  world_wf tx_world /\ engine_texts tx_engine /\ Forall (fun x => capi_wf (fst x)) tx_trace /\ answered tx_world library_start tx_trace tx_lib
  /\ behind tx_lib 16 = Some tx_rt /\ rn_poisoned tx_rt = false
  /\ envelope_wf (rx_envelope None) /\ enc_envelope (rx_envelope None) = Some fx_env_bytes /\ context_wf fx_ctx /\ enc_context fx_ctx = Some fx_ctx_bytes
  /\ call_document tx_doc rx_a (txt "f") tx_types tx_args /\ Forall2 normal_prim tx_types tx_docs
  /\ has_code rx_env (rn_gs tx_rt) rx_a (rx_code 1)
  /\ compiled tx_engine (rx_code 1) (txt "f") tx_types (Some (map YPrim tx_types)) tx_echo
  /\ (exists doc, tx_reply = Ok doc /\ field "success" doc (JBool true)).
Proof.
  split; [exact tx_world_wf|]. split; [exact tx_engine_texts|]. split; [exact tx_trace_wf|]. split; [exact tx_answered|].
  split; [vm_compute; reflexivity|]. split; [vm_compute; reflexivity|]. split; [exact fx_envelope_wf|]. split; [vm_compute; reflexivity|].
  split; [exact fx_ctx_wf|]. split; [vm_compute; reflexivity|]. split; [apply tx_document|].
  split; [constructor; [eexists; split; [reflexivity|]; apply Forall_forall; intros d Hd; vm_compute in Hd; lia|constructor; [exact Logic.I|constructor]]|].
  split; [exists (rx_taddr 1); eexists; eexists; split; [vm_compute; reflexivity|]; split; [vm_compute; reflexivity|]; split; vm_compute; reflexivity|].
  split; [apply px_compiled|]. eexists. split; [vm_compute; reflexivity|]. eexists; split; reflexivity.
Qed.

(** A template with a constructor that keeps its argument, and with the function above. *)
Definition sx_init : list held -> TypedModel.code (list hval) := fun hs =>
  match hs with [HInt U32 z] => cbind (host (HSet64 0 (Z.to_N z))) (fun _ => cret []) | _ => cpanic end.
Definition sx_engine : engine :=
  mkEngine unit (fun _ => None) (fun _ => WReturn (repeat 0 300) tt) (fun _ => true)
    (fun _ name => if bytes_eqb name RuntimeModel.svm_alloc then Some SigAlloc
                   else if bytes_eqb name (txt "init") || bytes_eqb name (txt "f") then Some SigUnit else None)
    (fun _ name args mem =>
       if bytes_eqb name RuntimeModel.svm_alloc
       then wbind (generated_alloc (List.hd 0 args) mem) (fun p mem' => WReturn mem' ([p], tt))
       else if bytes_eqb name (txt "init")
       then wbind (endpoint [YInt U32] None sx_init mem) (fun _ mem' => WReturn mem' ([], tt))
       else wbind (endpoint tx_types (Some (map YPrim tx_types)) tx_echo mem) (fun _ mem' => WReturn mem' ([], tt)))
    (fun _ => Some (fun _ => Some 0)) (fun _ => Some (fun _ => Some 10)).
Definition sx_world : world :=
  mkWorld rx_env sx_engine (fun _ => Some ProgramProps.ex_module) [(rx_taddr 1, rx_sections 1)] (rx_taddr 1).
Definition sx_ops : list capi := [CInit; CCreate InMemory 16].
Definition sx_lib : library := snd (capi_run sx_world sx_ops library_start).
Definition sx_trace : trace := combine sx_ops (fst (capi_run sx_world sx_ops library_start)).
Definition sx_rt : runtime := match behind sx_lib 16 with Some r => r | None => mkRuntime rx_start [] false end.
Definition sx_doc : json :=
  JObj [(txt "version", JNum 0); (txt "template", JStr (hex_upper (rx_taddr 1))); (txt "name", JStr (txt "acc")); (txt "ctor_name", JStr (txt "init"));
        (txt "calldata", JObj [(txt "abi", JArr [JStr (txt "u32")]); (txt "data", JArr [JNum 77])])].
Lemma sx_world_wf : world_wf sx_world.
Proof.
  destruct tx_world_wf as (A & B & C & D & E & F). split; [exact A|]. split; [exact B|]. split; [exact C|]. split; [|split; [exact E|exact F]].
  assert (Z : bytes_ok (repeat 0 300)) by (apply bytes_okb_ok; reflexivity).
  split; [intros code; constructor; exact Z|]. intros i name args mem Hm. cbn [w_engine sx_world sx_engine en_call].
  assert (W : forall R (P : R -> Prop) (t : wasm R) (f : R -> list N * unit), sound P t -> wasm_wf (wbind t (fun a mem' => WReturn mem' (f a)))).
  { intros R P t f So. eapply sound_wf. eapply (sound_wbind P (fun _ => True)); [exact So|]. intros a mem' _ Hm'. now constructor. }
  destruct (bytes_eqb name RuntimeModel.svm_alloc); [|destruct (bytes_eqb name (txt "init"))].
  - apply (W _ _ _ (fun p => ([p], tt)) (sound_call _ mem Hm)).
  - refine (W _ _ _ (fun _ => ([], tt)) (sound_endpoint [YInt U32] _ sx_init _ mem Hm)). intros hs Hs. unfold sx_init.
    destruct hs as [|[| [] | |] []]; try apply sound_panic. eapply sound_bind; [apply sound_call|]. intros _ _. apply sound_ret. constructor.
  - apply (W _ _ _ (fun _ => ([], tt)) (sound_endpoint tx_types _ tx_echo ltac:(intros hs Hs; apply sound_ret; apply Forall_map; exact Hs) mem Hm)).
Qed.
Lemma sx_engine_texts : engine_texts sx_engine.
Proof.
  split; [discriminate|]. split; [intros; constructor|]. intros i name args mem. cbn [sx_engine en_call].
  destruct (bytes_eqb name RuntimeModel.svm_alloc); [|destruct (bytes_eqb name (txt "init"))]; (apply texts_wbind; [|intros; constructor]).
  - exact (text_host _ mem).
  - apply text_endpoint. intros hs. unfold sx_init.
    destruct hs as [|[| [] | |] []]; try exact (text_some None). apply text_bind; [apply text_host|]. intros _. exact (text_some (Some _)).
  - apply text_endpoint. intros hs. exact (text_some (Some _)).
Qed.
Lemma sx_trace_wf : Forall (fun x => capi_wf (fst x)) sx_trace.
Proof.
  enough (G : forall tr : trace, map fst tr = sx_ops -> Forall (fun x => capi_wf (fst x)) tr) by (apply G; vm_compute; reflexivity).
  intros tr L. apply Forall_map. rewrite L. repeat constructor.
Qed.
Lemma sx_answered : answered sx_world library_start sx_trace sx_lib.
Proof.
  unfold answered. replace (map fst sx_trace) with sx_ops by (vm_compute; reflexivity).
  replace (map snd sx_trace) with (fst (capi_run sx_world sx_ops library_start)) by (vm_compute; reflexivity).
  apply surjective_pairing.
Qed.
Lemma sx_document : spawn_document sx_doc (rx_taddr 1) (txt "acc") (txt "init") [YInt U32] [PInt U32 77].
Proof.
  split; [exists 0; split; [eexists; split; reflexivity|reflexivity]|].
  split; [exists (hex_upper (rx_taddr 1)); split; [eexists; split; reflexivity|]; split; [apply spelled_upper, rx_a_wf|reflexivity]|].
  split; [eexists; split; reflexivity|]. split; [split; [split; [vm_compute; discriminate|apply bytes_okb_ok; reflexivity]|reflexivity]|].
  split; [eexists; split; reflexivity|]. split; [split; [split; [vm_compute; discriminate|apply bytes_okb_ok; reflexivity]|reflexivity]|].
  eexists _, [JNum 77]. split; [eexists; split; reflexivity|]. split; [|split; [reflexivity|split; [|vm_compute; discriminate]]].
  - eexists. split; [eexists; split; reflexivity|]. split; [|eexists; split; reflexivity]. repeat constructor.
  - split; [apply value_spec; vm_compute; reflexivity|exact Logic.I].
Qed.
(** The two answers. *)
Definition sx_replies : outcome json_error (json * json) :=
  let* m := encode_spawn sx_doc in
  match capi_step sx_world (COn 16 (QSpawn fx_env_bytes m fx_ctx_bytes)) sx_lib with
  | (RReceipt data, lb) =>
      let* doc := decode_receipt (data_doc data) in
      let* d := encode_call tx_doc in
      let* m' := get_field hex_of_json d "data" in
      match capi_step sx_world (COn 16 (QCall fx_env_bytes m' fx_ctx_bytes)) lb with
      | (RReceipt data', _) => let* doc' := decode_receipt (data_doc data') in Ok (doc, doc')
      | _ => Panic
      end
  | _ => Panic
  end.
Example C116_satisfiable :
  world_wf sx_world /\ engine_texts sx_engine /\ Forall (fun x => capi_wf (fst x)) sx_trace /\ answered sx_world library_start sx_trace sx_lib
  /\ behind sx_lib 16 = Some sx_rt /\ rn_poisoned sx_rt = false
  /\ envelope_wf (rx_envelope None) /\ enc_envelope (rx_envelope None) = Some fx_env_bytes /\ context_wf fx_ctx /\ enc_context fx_ctx = Some fx_ctx_bytes
  /\ spawn_document sx_doc (rx_taddr 1) (txt "acc") (txt "init") [YInt U32] [PInt U32 77]
  /\ template_code rx_env (rn_gs sx_rt) (rx_taddr 1) (rx_code 1)
  /\ compiled sx_engine (rx_code 1) (txt "init") [YInt U32] None sx_init
  /\ compiled sx_engine (rx_code 1) (txt "f") tx_types (Some (map YPrim tx_types)) tx_echo
  /\ call_document tx_doc rx_a (txt "f") tx_types tx_args
  /\ (exists doc doc', sx_replies = Ok (doc, doc') /\ field "success" doc (JBool true) /\ hex "account" doc rx_a /\ field "success" doc' (JBool true)).
Proof.
  split; [exact sx_world_wf|]. split; [exact sx_engine_texts|]. split; [exact sx_trace_wf|]. split; [exact sx_answered|].
  split; [vm_compute; reflexivity|]. split; [vm_compute; reflexivity|]. split; [exact fx_envelope_wf|]. split; [vm_compute; reflexivity|].
  split; [exact fx_ctx_wf|]. split; [vm_compute; reflexivity|]. split; [exact sx_document|].
  split; [eexists; eexists; split; [vm_compute; reflexivity|]; split; vm_compute; reflexivity|].
  split; [exists (repeat 0 300), tt; split; [reflexivity|]; split; [vm_compute; reflexivity|]; split; (split; [reflexivity|]); reflexivity|].
  split; [exists (repeat 0 300), tt; split; [reflexivity|]; split; [vm_compute; reflexivity|]; split; (split; [reflexivity|]); reflexivity|].
  split; [apply tx_document|]. eexists. eexists. split; [vm_compute; reflexivity|]. split; [eexists; split; reflexivity|].
  split; [eexists; split; [eexists; split; reflexivity|]; vm_compute; reflexivity|]. eexists; split; reflexivity.
Qed.
