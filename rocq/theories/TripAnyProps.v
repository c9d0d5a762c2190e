(** C115 and C116 for parameters of every type. *)
From Coq Require Import String List NArith ZArith Bool Lia ZifyBool ZifyNat ZifyN.
From Verif Require Import Base Text CodecModel CodecSpec CodecProofs ReceiptModel ReceiptSpec ReceiptProofs.
From Verif Require Import SectionModel SectionSpec SectionProofs StorageModel StorageSpec StorageProofs.
From Verif Require Import GlobalModel GlobalSpec GlobalProofs RuntimeModel RuntimeSpec RuntimeProofs RuntimeProps.
From Verif Require Import SdkModel AbiModel AbiSpec AbiProofs TypedModel TypedProofs EndpointModel EndpointSpec EndpointProofs EndpointProps.
From Verif Require Import FfiModel FfiSpec FfiProofs FfiProps AnswerSpec AnswerProofs AnswerProps.
From Verif Require Import JsonModel JsonSpec JsonProofs JsonProps TripSpec TripProofs TripProps ParamModel ParamSpec ParamProofs ParamProps TripAnySpec TripAnyProofs.
Import ListNotations.
Open Scope list_scope.
Open Scope N_scope.

(** ** C115 A call in JSON, answered in JSON *)

(** As C115_call_partial, for parameters of every type: also units, options and arrays.  A
    message carries at most 255 bytes of arguments, so that C121 needs no bound on them if a value
    takes at least 12 bytes in the contract's memory.  (It holds a number of 8 bytes and a tag.)
    The returned values are shown as [results_doc] says.
    Missing: returned addresses that stand where the answer is written (see C99). *)
Theorem C115_call_any_partial :
  forall w tr lb p r ev v ctx c j target name vl ts args rts code body Q,
  world_wf w -> engine_texts (w_engine w) -> Forall (fun x => capi_wf (fst x)) tr -> answered w library_start tr lb ->
  behind lb p = Some r -> rn_poisoned r = false ->
  envelope_wf ev -> enc_envelope ev = Some v -> context_wf ctx -> enc_context ctx = Some c ->
  vlayout_wf vl -> 12 <= vl_size vl ->
  call_document_any j target name ts args ->
  has_code (w_env w) (rn_gs r) target code -> compiled_any vl (w_engine w) code name ts (Some rts) body ->
  answers_any (w_env w) body args (nlen (flat_map format (map rust_value args))) rts Q ->
  exists m, encode_call j = Ok (data_doc m) /\
  forall data lb' doc,
    capi_step w (COn p (QCall v m c)) lb = (RReceipt data, lb') ->
    decode_receipt (data_doc data) = Ok doc -> field "success" doc (JBool true) ->
    exists vs rd, hex "returndata" doc rd /\ decode_inputdata (data_doc rd) = results_doc rts vs
      /\ Forall2 typed rts vs /\ Q vs.
Proof.
  intros w tr lb p r ev v ctx c j target name vl ts args rts code body Q HW HT HF HA B P We Ee Wc Ec Wv Sv HJ Hc Hx An.
  destruct (any_document_encoded j target name ts args HJ) as (T & Lc & t & m & Ej & Bm & Lm & Dm & Et & En & Ed).
  exists m. split; [exact Ej|]. intros data lb' doc X D S.
  destruct (call_answered w lb p r ev v ctx c m data lb' B P We Ee Wc Ec X) as (rc & g & Er & Edata).
  assert (HR : rt_reachable (w_env w) (w_engine w) (rn_gs r) (rn_cache r)) by exact (C84_behind_handles w tr lb p r HW HF HA B).
  assert (Ex : execute w TxCall ev m (rn_gs r) (rn_cache r) = (Some (RCall rc), g, rn_cache r)) by (cbn [execute]; now rewrite Er).
  destruct (C109_receipts w TxCall ev m _ _ (RCall rc) g (rn_cache r) HW HT HR We Bm Lm Ex) as (_ & [F _] & [_ Nf] & _).
  assert (W : receipt_wf (RCall rc)) by (apply F, Nf; now exists data).
  pose proof (decoded_shows (RCall rc) data doc W Edata D) as (_ & Sf & Sh). cbn [succeeded] in Sf.
  pose proof (field_fun _ _ _ _ S Sf) as Es. injection Es as Es.
  unfold rt_call in Er. rewrite Dm in Er. unfold transact in Er.
  destruct (build_call_reads (w_env w) t FullAccess (tx_func_name t) (tx_calldata t) (rn_gs r)) as [(cl & Eb & _ & Ef & Etg & Ei & _)|Eb]; rewrite Eb in Er; [|discriminate Er].
  rewrite Et in Etg. rewrite En in Ef. rewrite Ed in Ei.
  rewrite <- Etg in Hc. rewrite <- Ef in Hx. rewrite <- Ei in An.
  destruct (any_success_returned (w_env w) (w_engine w) cl (rn_gs r) rc g code vl ts rts body args Q Wv Hc Hx T
              ltac:(rewrite Ei; eapply any_encodes; eauto) ltac:(rewrite Ei; apply any_short; assumption) An Er (eq_sym Es)) as (vs & Rd & Tv & HQ).
  rewrite <- Es in Sh. destruct Sh as (_ & Sr & _). exists vs, (flat_map format (map rust_value vs)). split; [now apply Sr|].
  split; [now apply results_shown|]. auto.
Qed.
Print Assumptions C115_call_any_partial.

(** As C115_echo_partial: a client that calls a function which returns all its arguments gets back
    the document that it sent. *)
Theorem C115_echo_any_partial :
  forall w tr lb p r ev v ctx c j target name vl ts args ds code,
  world_wf w -> engine_texts (w_engine w) -> Forall (fun x => capi_wf (fst x)) tr -> answered w library_start tr lb ->
  behind lb p = Some r -> rn_poisoned r = false ->
  envelope_wf ev -> enc_envelope ev = Some v -> context_wf ctx -> enc_context ctx = Some c ->
  vlayout_wf vl -> 12 <= vl_size vl ->
  call_document_any j target name ts args -> Forall presentable ts ->
  field "calldata" j (JObj [(txt "abi", JArr (map show_type ts)); (txt "data", JArr ds)]) ->
  Forall2 normal_any ts ds ->
  has_code (w_env w) (rn_gs r) target code ->
  compiled_any vl (w_engine w) code name ts (Some ts) cret ->
  exists m, encode_call j = Ok (data_doc m) /\
  forall data lb' doc,
    capi_step w (COn p (QCall v m c)) lb = (RReceipt data, lb') ->
    decode_receipt (data_doc data) = Ok doc -> field "success" doc (JBool true) ->
    exists rd, hex "returndata" doc rd /\
      forall d, field "calldata" j d -> decode_inputdata (data_doc rd) = Ok d.
Proof.
  intros w tr lb p r ev v ctx c j target name vl ts args ds code HW HT HF HA B P We Ee Wc Ec Wv Sv HJ Pr Fc Nm Hc Hx.
  destruct (any_document_encoded j target name ts args HJ) as (T & _).
  assert (An : answers_any (w_env w) cret args (nlen (flat_map format (map rust_value args))) ts (fun vs => vs = args)).
  { intros hs mem f g0 rs mem' f' g1 [D Bl] L E. cbn [cret run_wasm] in E. injection E as <- <- <- <-. exists args. split; [exact T|].
    split; [exact D|]. split; [|auto]. eapply Forall_impl; [|exact Bl]. pose proof (tuple_max _ _ T) as M.
    intros h. destruct h as [|y|[y|]|l]; cbn [below]; auto; try (destruct y; cbn [held_below]; lia). apply Forall_impl. intros y; destruct y; cbn [held_below]; lia. }
  destruct (C115_call_any_partial w tr lb p r ev v ctx c j target name vl ts args ts code _ _ HW HT HF HA B P We Ee Wc Ec Wv Sv HJ Hc Hx An) as (m & Ej & H).
  exists m. split; [exact Ej|]. intros data lb' doc X D S. destruct (H data lb' doc X D S) as (vs & rd & Hr & Hd & _ & ->).
  exists rd. split; [exact Hr|]. intros d Fd. rewrite (field_fun _ _ _ _ Fd Fc). rewrite Hd, presentable_doc by assumption. unfold values_doc.
  assert (E : map show_rust args = ds); [|now rewrite E].
  destruct HJ as (_ & _ & _ & _ & _ & (c0 & Fc0 & Gv & _ & _)). rewrite (field_fun _ _ _ _ Fc0 Fc) in Gv.
  destruct Gv as [(sigs & ds' & [Af|(abi & Af & _)] & Ls & Z)|(s & Af & _)]; [|discriminate Af|discriminate Af].
  destruct Af as (abi & _ & _ & (fs & Ef & El)). injection Ef as <-.
  assert (ds' = ds) as -> by (vm_compute in El; congruence).
  eapply normal_any_all; eauto.
Qed.
Print Assumptions C115_echo_any_partial.

(** ** C116 An account spawned in JSON, and then called in JSON *)

(** As C116_spawn_partial, for parameters of every type.  Missing: as above. *)
Theorem C116_spawn_any_partial :
  forall w tr lb p r ev v ctx c j template name ctor vl ts args ret code body,
  world_wf w -> engine_texts (w_engine w) -> Forall (fun x => capi_wf (fst x)) tr -> answered w library_start tr lb ->
  behind lb p = Some r -> rn_poisoned r = false ->
  envelope_wf ev -> enc_envelope ev = Some v -> context_wf ctx -> enc_context ctx = Some c ->
  vlayout_wf vl -> 12 <= vl_size vl ->
  spawn_document_any j template name ctor ts args ->
  template_code (w_env w) (rn_gs r) template code -> compiled_any vl (w_engine w) code ctor ts ret body ->
  exists m, encode_spawn j = Ok m /\ bytes_ok m /\
  forall data lb' doc,
    capi_step w (COn p (QSpawn v m c)) lb = (RReceipt data, lb') ->
    decode_receipt (data_doc data) = Ok doc -> field "success" doc (JBool true) ->
    exists a st r', hex "account" doc a /\ hex "state" doc st
      /\ behind lb' p = Some r' /\ rn_poisoned r' = false /\ committed_with (rn_gs r') (Some st)
      /\ fst (account_name (w_env w) a (rn_gs r')) = Ok name
      /\ fst (account_template (w_env w) a (rn_gs r')) = Ok template
      /\ has_code (w_env w) (rn_gs r') a code
      /\ (forall rts Q, ret = Some rts ->
            answers_any (w_env w) body args (nlen (flat_map format (map rust_value args))) rts Q ->
            exists vs rd, hex "returndata" doc rd /\ decode_inputdata (data_doc rd) = results_doc rts vs
              /\ Forall2 typed rts vs /\ Q vs).
Proof.
  intros w tr lb p r ev v ctx c j template name ctor vl ts args ret code body HW HT HF HA B P We Ee Wc Ec Wv Sv HJ Hc Hx.
  destruct (any_spawn_encoded j template name ctor ts args HJ) as (T & Lc & Wt & s & m & Ej & Bm & Lm & Dm & Et & En & Ek & Ed).
  exists m. split; [exact Ej|]. split; [exact Bm|]. intros data lb' doc X D S.
  destruct (spawn_answered w lb p r ev v ctx c m data lb' B P We Ee Wc Ec X) as (rc & pc & g & Er & Edata & B').
  assert (HR : rt_reachable (w_env w) (w_engine w) (rn_gs r) (rn_cache r)) by exact (C84_behind_handles w tr lb p r HW HF HA B).
  assert (Ex : execute w TxSpawn ev m (rn_gs r) (rn_cache r) = (Some (RSpawn rc), g, pc)) by (cbn [execute]; now rewrite Er).
  destruct (C109_receipts w TxSpawn ev m _ _ (RSpawn rc) g pc HW HT HR We Bm Lm Ex) as (_ & [F _] & [_ Nf] & _).
  assert (W : receipt_wf (RSpawn rc)) by (apply F, Nf; now exists data).
  pose proof (decoded_shows (RSpawn rc) data doc W Edata D) as (_ & Sf & Sh). cbn [succeeded] in Sf.
  pose proof (field_fun _ _ _ _ S Sf) as Es. injection Es as Es. rewrite <- Es in Sh. destruct Sh as (Sa & Ss & Sr & _).
  pose proof HW as (HI & HC & HH & HE & _). pose proof (rt_live _ _ _ _ HI HC HH HE HR) as HL.
  destruct (spawn_effect _ _ _ _ _ _ _ _ _ HI HC HH HE HL Bm Er (eq_sym Es)) as (s' & Dm' & Ea & _ & _ & Cm & An & At & _ & _ & _ & Se).
  rewrite Dm in Dm'. apply Some_inj in Dm'. subst s'.
  destruct (spawn_executed _ _ _ _ _ _ _ _ _ s HI HC HH HL Bm Dm Er (eq_sym Es)) as (g1 & rc1 & E1 & S1 & R1 & T1 & L1).
  destruct (sr_init_state rc) as [st|] eqn:Est; [|destruct Cm as (lid & fp & Cm & _); discriminate Cm].
  exists (account_addr (w_env w) (sp_template s)), st, (mkRuntime g pc false).
  split; [now apply Sa|]. split; [now apply Ss|]. split; [exact B'|]. split; [reflexivity|]. split; [exact Cm|].
  rewrite En in An. rewrite Et in *. split; [exact An|]. split; [exact At|]. destruct Hc as (l & cs & El & Cl & Eb).
  split.
  { exists template, l, cs. split; [exact At|]. split; [rewrite Se by exact Wt; exact El|]. auto. }
  intros rts Q -> Ans.
  rewrite Ed, Ek in E1.
  assert (Hc1 : has_code (w_env w) g1 (account_addr (w_env w) template) code).
  { exists template, l, cs. split; [exact T1|]. split; [rewrite L1; exact El|]. auto. }
  destruct (any_success_returned (w_env w) (w_engine w) (mkCall ctor (flat_map format (map rust_value args)) (account_addr (w_env w) template) template true FullAccess)
              g1 rc1 g code vl ts rts body args Q Wv Hc1 Hx T
              ltac:(eapply any_encodes; eauto) ltac:(apply any_short; assumption) Ans E1 S1) as (vs & Rd & Tv & HQ).
  exists vs, (flat_map format (map rust_value vs)). split; [apply Sr; now rewrite R1|].
  split; [now apply results_shown|]. auto.
Qed.
Print Assumptions C116_spawn_any_partial.

(** As C116_then_call_partial. *)
Theorem C116_then_call_any_partial :
  forall w tr lb p r ev v ctx c j template name ctor vl ts args ret code body func ts' args' rts body' Q,
  world_wf w -> engine_texts (w_engine w) -> Forall (fun x => capi_wf (fst x)) tr -> answered w library_start tr lb ->
  behind lb p = Some r -> rn_poisoned r = false ->
  envelope_wf ev -> enc_envelope ev = Some v -> context_wf ctx -> enc_context ctx = Some c ->
  vlayout_wf vl -> 12 <= vl_size vl ->
  spawn_document_any j template name ctor ts args ->
  template_code (w_env w) (rn_gs r) template code -> compiled_any vl (w_engine w) code ctor ts ret body ->
  compiled_any vl (w_engine w) code func ts' (Some rts) body' ->
  answers_any (w_env w) body' args' (nlen (flat_map format (map rust_value args'))) rts Q ->
  exists m, encode_spawn j = Ok m /\
  forall data lb' doc,
    capi_step w (COn p (QSpawn v m c)) lb = (RReceipt data, lb') ->
    decode_receipt (data_doc data) = Ok doc -> field "success" doc (JBool true) ->
    exists a, hex "account" doc a /\
    forall j', call_document_any j' a func ts' args' ->
    exists m', encode_call j' = Ok (data_doc m') /\
    forall data' lb'' doc',
      capi_step w (COn p (QCall v m' c)) lb' = (RReceipt data', lb'') ->
      decode_receipt (data_doc data') = Ok doc' -> field "success" doc' (JBool true) ->
      exists vs rd, hex "returndata" doc' rd /\ decode_inputdata (data_doc rd) = results_doc rts vs
        /\ Forall2 typed rts vs /\ Q vs.
Proof.
  intros w tr lb p r ev v ctx c j template name ctor vl ts args ret code body func ts' args' rts body' Q HW HT HF HA B P We Ee Wc Ec Wv Sv HJ Hc Hx Hx' Ans.
  destruct (C116_spawn_any_partial w tr lb p r ev v ctx c j template name ctor vl ts args ret code body HW HT HF HA B P We Ee Wc Ec Wv Sv HJ Hc Hx)
    as (m & Ej & Bm & K).
  exists m. split; [exact Ej|]. intros data lb' doc X D S.
  destruct (K data lb' doc X D S) as (a & st & r' & Ha & _ & B' & P' & _ & _ & _ & Hc' & _).
  exists a. split; [exact Ha|]. intros j' HJ'.
  refine (C115_call_any_partial w (tr ++ [(COn p (QSpawn v m c), RReceipt data)]) lb' p r' ev v ctx c j' a func vl ts' args' rts code body' Q
           HW HT _ _ B' P' We Ee Wc Ec Wv Sv HJ' Hc' Hx' Ans).
  - apply Forall_app. split; [exact HF|]. constructor; [|constructor]. cbn [fst capi_wf request_wf].
    split; [split; [apply (envelope_format ev v We Ee)|eapply enc_envelope_ok; eauto]|]. split; [exact Bm|].
    split; [apply (context_format ctx c Wc Ec)|eapply enc_context_ok; eauto].
  - eapply answered_snoc; eauto.
Qed.
Print Assumptions C116_then_call_any_partial.

(** The document of the results is a document of their types and values if these are primitives, or
    arrays neither empty nor of eight elements; there is none exactly if one of the results is a
    unit, an empty option, or an array of eight elements. *)
Theorem C115_results :
  forall rts vs, Forall2 typed rts vs ->
  (Forall presentable rts -> results_doc rts vs = Ok (values_doc rts vs)) /\
  (results_doc rts vs = Panic <->
   Exists (fun v => v = RUnit \/ v = ROption None \/ exists l, v = RArray l /\ nlen l = 8) vs).
Proof.
  intros rts vs T. split; [intros P; now apply presentable_doc|].
  assert (X : result_docs rts vs = None <-> Exists (fun v => v = RUnit \/ v = ROption None \/ exists l, v = RArray l /\ nlen l = 8) vs).
  { induction T as [|t v rts vs Tv _ IH]; cbn [result_docs]; [split; [discriminate|intros E; inversion E]|].
    rewrite Exists_cons, <- IH.
    assert (D : result_doc t v = None <-> (v = RUnit \/ v = ROption None \/ exists l, v = RArray l /\ nlen l = 8)).
    { destruct t as [|t|t|t n], v as [|p|[p|]|l]; try contradiction Tv; cbn [result_doc]; try tauto;
        try (split; [discriminate|intros [E|[E|(l & E & _)]]; discriminate E]).
      destruct Tv as (En & _). destruct (N.eqb_spec n 8) as [->|Ne].
      - split; [|auto]. intros _. right; right. eauto.
      - split; [discriminate|]. intros [E|[E|(l' & E & L)]]; try discriminate E. injection E as <-. congruence. }
    rewrite <- D. destruct (result_doc t v), (result_docs rts vs); split; intros; try discriminate; try tauto.
    - destruct H as [H|H]; discriminate H. }
  rewrite <- X. unfold results_doc. destruct (result_docs rts vs); split; intros; try discriminate; reflexivity.
Qed.
Print Assumptions C115_results.

(** Documents with primitive arguments are among these, and mean the same. *)
Theorem C115_primitive_documents :
  forall j target name ts args,
  call_document j target name ts args -> call_document_any j target name (map YPrim ts) (map RPrim args).
Proof.
  intros j target name ts args HJ. destruct (document_encoded j target name ts args HJ) as (T & _).
  destruct HJ as (A & B & C & D & E & (c & ds & Fc & If & Ld & Z & Lc)).
  split; [exact A|]. split; [exact B|]. split; [exact C|]. split; [exact D|]. split; [exact E|].
  assert (Em : map rust_value (map RPrim args) = map VPrim args) by (rewrite map_map; reflexivity).
  exists c. split; [exact Fc|]. unfold given. rewrite Em. split; [|split].
  - left. exists (map TPrim ts), ds. split; [now left|]. split; [now rewrite map_length|exact Z].
  - clear -T. induction T; constructor; auto.
  - replace (flat_map format (map VPrim args)) with (flat_map prim_format args); [exact Lc|]. clear. induction args as [|a l IH]; [reflexivity|]. cbn. now rewrite IH.
Qed.
Print Assumptions C115_primitive_documents.

(** A template with a constructor of an array and an option, which keeps the first element of the
    array, and with a function that returns its arguments: an array and an address. *)
Definition vx_ctor_types : list aty := [YArray (YInt U32) 2; YOption YAddress].
Definition vx_ctor_args : list rust := [RArray [PInt U32 77; PInt U32 5]; ROption None].
Definition vx_types : list aty := [YArray (YInt U32) 2; YPrim YAddress].
Definition vx_args : list rust := [RArray [PInt U32 7; PInt U32 70]; RPrim (px_addr 171)].
Definition vx_init : list hval -> TypedModel.code (list hval) := fun hs =>
  match hs with [HArr (HInt U32 z :: _); HOpt None] => cbind (host (HSet64 0 (Z.to_N z))) (fun _ => cret []) | _ => cpanic end.
Definition vx_engine : engine :=
  mkEngine unit (fun _ => None) (fun _ => WReturn (repeat 0 2000) tt) (fun _ => true)
    (fun _ name => if bytes_eqb name RuntimeModel.svm_alloc then Some SigAlloc
                   else if bytes_eqb name (txt "init") || bytes_eqb name (txt "f") then Some SigUnit else None)
    (fun _ name args mem =>
       if bytes_eqb name RuntimeModel.svm_alloc
       then wbind (generated_alloc (List.hd 0 args) mem) (fun p mem' => WReturn mem' ([p], tt))
       else if bytes_eqb name (txt "init")
       then wbind (endpoint_any ax_layout vx_ctor_types None vx_init mem) (fun _ mem' => WReturn mem' ([], tt))
       else wbind (endpoint_any ax_layout vx_types (Some vx_types) cret mem) (fun _ mem' => WReturn mem' ([], tt)))
    (fun _ => Some (fun _ => Some 0)) (fun _ => Some (fun _ => Some 10)).
Definition vx_world : world :=
  mkWorld rx_env vx_engine (fun _ => Some ProgramProps.ex_module) [(rx_taddr 1, rx_sections 1)] (rx_taddr 1).
Definition vx_ops : list capi := [CInit; CCreate InMemory 16].
Definition vx_lib : library := snd (capi_run vx_world vx_ops library_start).
Definition vx_trace : trace := combine vx_ops (fst (capi_run vx_world vx_ops library_start)).
Definition vx_rt : runtime := match behind vx_lib 16 with Some r => r | None => mkRuntime rx_start [] false end.
Definition vx_spawn_doc : json :=
  JObj [(txt "version", JNum 0); (txt "template", JStr (hex_upper (rx_taddr 1))); (txt "name", JStr (txt "acc")); (txt "ctor_name", JStr (txt "init"));
        (txt "calldata", JStr (hex_upper (flat_map format (map rust_value vx_ctor_args))))].
Definition vx_docs : list json := [JArr [JNum 7; JNum 70]; JStr (hex_upper (repeat 171 20))].
Definition vx_doc : json :=
  JObj [(txt "version", JNum 0); (txt "target", JStr (hex_upper rx_a)); (txt "func_name", JStr (txt "f")); (txt "verifydata", JStr []);
        (txt "calldata", JObj [(txt "abi", JArr (map show_type vx_types)); (txt "data", JArr vx_docs)])].
Lemma ax_layout_ok q p : bytes_ok (vl_bytes ax_layout q p).
Proof. cbn [ax_layout vl_bytes]. apply Forall_app. split; apply le_bytes_ok. Qed.
Lemma vx_world_wf : world_wf vx_world.
Proof.
  destruct tx_world_wf as (A & B & C & D & E & F). split; [exact A|]. split; [exact B|]. split; [exact C|]. split; [|split; [exact E|exact F]].
  assert (Z : bytes_ok (repeat 0 2000)) by (apply bytes_okb_ok; vm_compute; reflexivity).
  split; [intros code; constructor; exact Z|]. intros i name args mem Hm. cbn [w_engine vx_world vx_engine en_call].
  assert (W : forall R (P : R -> Prop) (t : wasm R) (f : R -> list N * unit), sound P t -> wasm_wf (wbind t (fun a mem' => WReturn mem' (f a)))).
  { intros R P t f So. eapply sound_wf. eapply (sound_wbind P (fun _ => True)); [exact So|]. intros a mem' _ Hm'. now constructor. }
  destruct (bytes_eqb name RuntimeModel.svm_alloc); [|destruct (bytes_eqb name (txt "init"))].
  - apply (W _ _ _ (fun p => ([p], tt)) (sound_call _ mem Hm)).
  - refine (W _ _ _ (fun _ => ([], tt)) (sound_endpoint_any ax_layout ax_layout_ok vx_ctor_types _ vx_init _ mem Hm)). intros hs Hs. unfold vx_init.
    destruct hs as [|h hs]; try apply sound_panic. destruct h as [|h|o|[|[b|[]|n|q] l]]; try apply sound_panic.
    destruct hs as [|h [|h' hs]]; try apply sound_panic; destruct h as [|h|[o|]|l']; try apply sound_panic.
    eapply sound_bind; [apply sound_call|]. intros _ _. apply sound_ret. constructor.
  - apply (W _ _ _ (fun _ => ([], tt)) (sound_endpoint_any ax_layout ax_layout_ok vx_types _ cret ltac:(intros hs Hs; now apply sound_ret) mem Hm)).
Qed.
Lemma vx_engine_texts : engine_texts vx_engine.
Proof.
  split; [discriminate|]. split; [intros; constructor|]. intros i name args mem. cbn [vx_engine en_call].
  destruct (bytes_eqb name RuntimeModel.svm_alloc); [|destruct (bytes_eqb name (txt "init"))]; (apply texts_wbind; [|intros; constructor]).
  - exact (text_host _ mem).
  - apply text_endpoint_any. intros hs. unfold vx_init.
    destruct hs as [|h hs]; try exact (text_some None). destruct h as [|h|o|[|[b|[]|n|q] l]]; try exact (text_some None).
    destruct hs as [|h [|h' hs]]; try exact (text_some None); destruct h as [|h|[o|]|l']; try exact (text_some None).
    apply text_bind; [apply text_host|]. intros _. exact (text_some (Some _)).
  - apply text_endpoint_any. intros hs. exact (text_some (Some _)).
Qed.
Lemma vx_trace_wf : Forall (fun x => capi_wf (fst x)) vx_trace.
Proof.
  enough (G : forall tr : trace, map fst tr = vx_ops -> Forall (fun x => capi_wf (fst x)) tr) by (apply G; vm_compute; reflexivity).
  intros tr L. apply Forall_map. rewrite L. repeat constructor.
Qed.
Lemma vx_answered : answered vx_world library_start vx_trace vx_lib.
Proof.
  unfold answered. replace (map fst vx_trace) with vx_ops by (vm_compute; reflexivity).
  replace (map snd vx_trace) with (fst (capi_run vx_world vx_ops library_start)) by (vm_compute; reflexivity).
  apply surjective_pairing.
Qed.
Lemma vx_typed : Forall2 typed vx_ctor_types vx_ctor_args /\ Forall2 typed vx_types vx_args.
Proof.
  assert (A : forall a b, (0 <= a < 100)%Z -> (0 <= b < 100)%Z -> typed (YArray (YInt U32) 2) (RArray [PInt U32 a; PInt U32 b])).
  { intros a b Ha Hb. split; [reflexivity|]. split; [vm_compute; discriminate|]. repeat (constructor; [now apply ax_int|]). constructor. }
  split; (constructor; [apply A; lia|]); (constructor; [|constructor]); [exact Logic.I|apply ax_addr; reflexivity].
Qed.
Lemma vx_spawn_document : spawn_document_any vx_spawn_doc (rx_taddr 1) (txt "acc") (txt "init") vx_ctor_types vx_ctor_args.
Proof.
  split; [exists 0; split; [eexists; split; reflexivity|reflexivity]|].
  split; [exists (hex_upper (rx_taddr 1)); split; [eexists; split; reflexivity|]; split; [apply spelled_upper, rx_a_wf|reflexivity]|].
  split; [eexists; split; reflexivity|]. split; [split; [split; [vm_compute; discriminate|apply bytes_okb_ok; reflexivity]|reflexivity]|].
  split; [eexists; split; reflexivity|]. split; [split; [split; [vm_compute; discriminate|apply bytes_okb_ok; reflexivity]|reflexivity]|].
  eexists. split; [eexists; split; reflexivity|]. split; [|split; [apply vx_typed|vm_compute; discriminate]].
  right. eexists. split; [reflexivity|]. apply spelled_upper, bytes_okb_ok. vm_compute. reflexivity.
Qed.
Lemma vx_document : call_document_any vx_doc rx_a (txt "f") vx_types vx_args.
Proof.
  split; [exists 0; split; [eexists; split; reflexivity|reflexivity]|].
  split; [exists (hex_upper rx_a); split; [eexists; split; reflexivity|]; split; [apply spelled_upper, rx_a_wf|reflexivity]|].
  split; [eexists; split; reflexivity|]. split; [split; [split; [vm_compute; discriminate|apply bytes_okb_ok; reflexivity]|reflexivity]|].
  split; [exists (JStr []), []; split; [eexists; split; reflexivity|]; split; [left; exists []; split; [reflexivity|exact Logic.I]|vm_compute; discriminate]|].
  eexists. split; [eexists; split; reflexivity|]. split; [|split; [apply vx_typed|vm_compute; discriminate]].
  left. exists [TArr [TPrim (YInt U32)]; TPrim YAddress], vx_docs. split; [left|split; [reflexivity|]].
  - eexists. split; [eexists; split; reflexivity|]. split; [|eexists; split; reflexivity].
    repeat (constructor; [apply sig_spec; reflexivity|]). constructor.
  - split; [apply value_spec; vm_compute; reflexivity|]. split; [apply value_spec; vm_compute; reflexivity|exact Logic.I].
Qed.
(** The two answers. *)
Definition vx_replies : outcome json_error (json * json) :=
  let* m := encode_spawn vx_spawn_doc in
  match capi_step vx_world (COn 16 (QSpawn fx_env_bytes m fx_ctx_bytes)) vx_lib with
  | (RReceipt data, lb) =>
      let* doc := decode_receipt (data_doc data) in
      let* d := encode_call vx_doc in
      let* m' := get_field hex_of_json d "data" in
      match capi_step vx_world (COn 16 (QCall fx_env_bytes m' fx_ctx_bytes)) lb with
      | (RReceipt data', _) => let* doc' := decode_receipt (data_doc data') in Ok (doc, doc')
      | _ => Panic
      end
  | _ => Panic
  end.
Lemma vx_compiled : compiled_any ax_layout vx_engine (rx_code 1) (txt "init") vx_ctor_types None vx_init
  /\ compiled_any ax_layout vx_engine (rx_code 1) (txt "f") vx_types (Some vx_types) cret.
Proof.
  split; exists (repeat 0 2000), tt; (split; [reflexivity|]); (split; [vm_compute; reflexivity|]); split; (split; [reflexivity|]); reflexivity.
Qed.
(** For C115, the account is one that the client made before. *)
Definition vx_ops1 : list capi := vx_ops ++ [COn 16 (QGenesisAccount rx_a 50 1 7)].
Definition vx_lib1 : library := snd (capi_run vx_world vx_ops1 library_start).
Definition vx_trace1 : trace := combine vx_ops1 (fst (capi_run vx_world vx_ops1 library_start)).
Definition vx_rt1 : runtime := match behind vx_lib1 16 with Some r => r | None => mkRuntime rx_start [] false end.
Lemma vx_trace1_wf : Forall (fun x => capi_wf (fst x)) vx_trace1.
Proof.
  enough (G : forall tr : trace, map fst tr = vx_ops1 -> Forall (fun x => capi_wf (fst x)) tr) by (apply G; vm_compute; reflexivity).
  intros tr L. apply Forall_map. rewrite L. unfold vx_ops1, vx_ops. cbn [app].
  constructor; [exact Logic.I|]. constructor; [exact Logic.I|]. constructor; [|constructor]. cbn [capi_wf request_wf].
  split; [exact rx_a_wf|]. repeat split; reflexivity.
Qed.
Lemma vx_answered1 : answered vx_world library_start vx_trace1 vx_lib1.
Proof.
  unfold answered. replace (map fst vx_trace1) with vx_ops1 by (vm_compute; reflexivity).
  replace (map snd vx_trace1) with (fst (capi_run vx_world vx_ops1 library_start)) by (vm_compute; reflexivity).
  apply surjective_pairing.
Qed.
Definition vx_reply : outcome json_error json :=
  let* d := encode_call vx_doc in
  let* m := get_field hex_of_json d "data" in
  match capi_step vx_world (COn 16 (QCall fx_env_bytes m fx_ctx_bytes)) vx_lib1 with
  | (RReceipt data, _) => decode_receipt (data_doc data)
  | _ => Panic
  end.
Lemma vx_reply_run : exists doc, vx_reply = Ok doc /\ field "success" doc (JBool true).
Proof. eexists. split; [vm_compute; reflexivity|]. eexists; split; reflexivity. Qed.
Lemma vx_replies_run : exists doc doc', vx_replies = Ok (doc, doc') /\ field "success" doc (JBool true) /\ hex "account" doc rx_a /\ field "success" doc' (JBool true).
Proof.
  eexists. eexists. split; [vm_compute; reflexivity|]. split; [eexists; split; reflexivity|].
  split; [eexists; split; [eexists; split; reflexivity|]; vm_compute; reflexivity|]. eexists; split; reflexivity.
Qed.
Lemma vx_answers args ts n : Forall2 typed ts args -> n = nlen (flat_map format (map rust_value args)) -> answers_any rx_env cret args n ts (fun vs => vs = args).
Proof.
  intros T -> hs mem f g0 rs mem' f' g1 [D Bl] L E. cbn [cret run_wasm] in E. injection E as <- <- <- <-. exists args. split; [exact T|].
  split; [exact D|]. split; [|auto]. eapply Forall_impl; [|exact Bl]. pose proof (tuple_max _ _ T) as M.
  intros h. destruct h as [|y|[y|]|l]; cbn [below]; auto; try (destruct y; cbn [held_below]; lia). apply Forall_impl. intros y; destruct y; cbn [held_below]; lia.
Qed.
Example C115_any_satisfiable :
  world_wf vx_world /\ engine_texts vx_engine /\ Forall (fun x => capi_wf (fst x)) vx_trace1 /\ answered vx_world library_start vx_trace1 vx_lib1
  /\ behind vx_lib1 16 = Some vx_rt1 /\ rn_poisoned vx_rt1 = false
  /\ envelope_wf (rx_envelope None) /\ enc_envelope (rx_envelope None) = Some fx_env_bytes /\ context_wf fx_ctx /\ enc_context fx_ctx = Some fx_ctx_bytes
  /\ vlayout_wf ax_layout /\ 12 <= vl_size ax_layout
  /\ call_document_any vx_doc rx_a (txt "f") vx_types vx_args /\ Forall presentable vx_types /\ Forall2 normal_any vx_types vx_docs
  /\ field "calldata" vx_doc (JObj [(txt "abi", JArr (map show_type vx_types)); (txt "data", JArr vx_docs)])
  /\ has_code rx_env (rn_gs vx_rt1) rx_a (rx_code 1)
  /\ compiled_any ax_layout vx_engine (rx_code 1) (txt "f") vx_types (Some vx_types) cret
  /\ answers_any rx_env cret vx_args (nlen (flat_map format (map rust_value vx_args))) vx_types (fun vs => vs = vx_args)
  /\ (exists doc, vx_reply = Ok doc /\ field "success" doc (JBool true)).
Proof.
  split; [exact vx_world_wf|]. split; [exact vx_engine_texts|]. split; [exact vx_trace1_wf|]. split; [exact vx_answered1|].
  split; [vm_compute; reflexivity|]. split; [vm_compute; reflexivity|]. split; [exact fx_envelope_wf|]. split; [vm_compute; reflexivity|].
  split; [exact fx_ctx_wf|]. split; [vm_compute; reflexivity|]. split; [exact ax_layout_wf|]. split; [vm_compute; discriminate|].
  split; [exact vx_document|].
  split; [constructor; [split; vm_compute; discriminate|]; constructor; [exact Logic.I|constructor]|].
  split; [constructor; [eexists; split; [reflexivity|]; repeat constructor|constructor; [eexists; split; [reflexivity|]; apply Forall_forall; intros d Hd; vm_compute in Hd; lia|constructor]]|].
  split; [eexists; split; reflexivity|].
  split; [exists (rx_taddr 1); eexists; eexists; split; [vm_compute; reflexivity|]; split; [vm_compute; reflexivity|]; split; vm_compute; reflexivity|].
  split; [apply vx_compiled|]. split; [apply vx_answers; [apply vx_typed|reflexivity]|]. exact vx_reply_run.
Qed.
Example C116_any_satisfiable :
  Forall (fun x => capi_wf (fst x)) vx_trace /\ answered vx_world library_start vx_trace vx_lib
  /\ behind vx_lib 16 = Some vx_rt /\ rn_poisoned vx_rt = false
  /\ spawn_document_any vx_spawn_doc (rx_taddr 1) (txt "acc") (txt "init") vx_ctor_types vx_ctor_args
  /\ template_code rx_env (rn_gs vx_rt) (rx_taddr 1) (rx_code 1)
  /\ compiled_any ax_layout vx_engine (rx_code 1) (txt "init") vx_ctor_types None vx_init
  /\ (exists doc doc', vx_replies = Ok (doc, doc') /\ field "success" doc (JBool true) /\ hex "account" doc rx_a /\ field "success" doc' (JBool true)).
Proof.
  split; [exact vx_trace_wf|]. split; [exact vx_answered|]. split; [vm_compute; reflexivity|]. split; [vm_compute; reflexivity|].
  split; [exact vx_spawn_document|].
  split; [eexists; eexists; split; [vm_compute; reflexivity|]; split; vm_compute; reflexivity|]. split; [apply vx_compiled|exact vx_replies_run].
Qed.
