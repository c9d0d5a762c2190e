(** Proofs for TripProps. *)
From Coq Require Import String List NArith ZArith Bool Lia ZifyBool ZifyNat ZifyN.
From Verif Require Import Base Text CodecModel CodecSpec CodecProofs ReceiptModel ReceiptSpec ReceiptProofs.
From Verif Require Import SectionModel SectionSpec SectionProofs StorageModel StorageSpec StorageProofs.
From Verif Require Import GlobalModel GlobalSpec GlobalProofs RuntimeModel RuntimeSpec RuntimeProofs.
From Verif Require Import SdkModel AbiModel AbiSpec AbiProofs TypedModel TypedProofs EndpointModel EndpointSpec EndpointProofs.
From Verif Require Import FfiModel FfiSpec FfiProofs FfiProps AnswerSpec AnswerProofs AnswerProps.
From Verif Require Import JsonModel JsonSpec JsonProofs JsonProps TripSpec.
Import ListNotations.
Open Scope list_scope.
Open Scope N_scope.

(* ------------------------------------------------------------------------- *)
(** * Values that are shown *)

Lemma typed_reads t p : prim_typed t p -> prim_reads t (show_prim p) p.
Proof.
  intros [O T]. destruct t as [| | |t].
  - destruct T as [b ->]. reflexivity.
  - destruct T as [n ->]. split; [reflexivity|exact O].
  - destruct T as [a ->]. exists (hex_upper a). split; [reflexivity|]. destruct O as [B L]. split; [now apply spelled_upper|exact L].
  - destruct T as [z ->]. split; [reflexivity|]. split; [reflexivity|exact O].
Qed.
Definition sig_of (t : aty) : tysig :=
  match t with YPrim t => TPrim t | YArray t _ => TArr [TPrim t] | YUnit | YOption _ => TArr [] end.
Lemma shown_rust v : show_value (rust_value v) = match v with RUnit | ROption _ => show_value (rust_value v) | _ => show_rust v end.
Proof. destruct v as [| | |l]; try reflexivity. cbn [rust_value show_value show_rust]. f_equal. now rewrite map_map. Qed.
Lemma presented t v : presentable t -> typed t v ->
  reads (sig_of t) (show_rust v) (rust_value v) /\ flat_sig (sig_of t) /\ readable (rust_value v)
  /\ show_sig (sig_of t) = show_type t /\ show_value (rust_value v) = show_rust v.
Proof.
  destruct t as [|t|t|t n], v as [|p|o|l]; cbn [presentable typed]; intros P T; try contradiction; cbn [sig_of rust_value show_rust].
  - split; [now apply typed_reads|]. repeat split.
  - destruct P as [P0 P8], T as (En & Le & F). split; [|split; [exact Logic.I|split; [|split; [reflexivity|]]]].
    + exists (map show_prim l). split; [reflexivity|]. split; [unfold nlen in *; rewrite map_length; lia|].
      clear -F. induction F; constructor; [now apply typed_reads|assumption].
    + split; [destruct l; [cbn in En; lia|discriminate]|]. unfold nlen in *. rewrite map_length. lia.
    + cbn [show_value]. f_equal. now rewrite map_map.
Qed.
Lemma values_shown rts vs : Forall presentable rts -> Forall2 typed rts vs ->
  decode_inputdata (data_doc (flat_map format (map rust_value vs))) = Ok (values_doc rts vs).
Proof.
  intros P T.
  assert (X : zip_reads (map sig_of rts) (map show_rust vs) (map rust_value vs) /\ Forall flat_sig (map sig_of rts) /\ Forall readable (map rust_value vs)
    /\ map show_sig (map sig_of rts) = map show_type rts /\ map show_value (map rust_value vs) = map show_rust vs).
  { induction T as [|t v rts vs T _ IH]; [repeat split; constructor|]. inversion_clear P as [|? ? P1 P2]. destruct (IH P2) as (A & B & C & D & E).
    destruct (presented t v P1 T) as (A1 & B1 & C1 & D1 & E1). cbn [map zip_reads]. split; [auto|]. split; [now constructor|]. split; [now constructor|].
    split; congruence. }
  destruct X as (Z & F & R & D & E).
  unfold decode_inputdata. rewrite get_data_hex by (apply formats_ok; eapply zip_reads_flat; eauto). cbn [bind].
  rewrite (calldata_shown (map sig_of rts) (map show_rust vs) _ ltac:(rewrite !map_length; exact (Forall2_len _ _ _ T)) Z F R).
  unfold show_input, values_doc. now rewrite D, E.
Qed.

(* ------------------------------------------------------------------------- *)
(** * The call *)

Lemma success_returned e en cl g r g' code ts rts body args Q :
  has_code e g (cl_target cl) code -> compiled en code (cl_func cl) ts (Some rts) body ->
  Forall2 prim_typed ts args -> encodes_args args (cl_input cl) -> answers e body args (nlen (cl_input cl)) rts Q ->
  exec_call e en cl g = (Some r, g') -> cr_success r = true ->
  exists vs, cr_returndata r = Some (flat_map format (map rust_value vs)) /\ Forall2 typed rts vs /\ Q vs.
Proof.
  intros Hc Hx T Ein HA Ex Hs.
  destruct (success_main e en cl g r g' code ts (Some rts) body args Hc Hx T Ein Ex Hs) as (hs & mem & f & g1 & mem' & f' & g2 & D & L & _ & Em & Er).
  apply main_inv in Em as (rs & mem1 & f1 & g3 & Eb & Ee).
  destruct (HA hs mem f g1 rs mem1 f1 g3 D L Eb) as (vs & Tv & St & B & L1 & HQ).
  pose proof (proj1 (epilogue_run e rts vs rs mem1 f1 g3 Tv St B L1) mem' f' g2 Ee) as X.
  exists vs. split; [|auto]. rewrite Er, X. reflexivity.
Qed.
Lemma typed_encodes ts args : Forall2 prim_typed ts args -> encodes_args args (flat_map prim_format args).
Proof.
  intros T. assert (T' : Forall2 typed (map YPrim ts) (map RPrim args)) by (induction T; constructor; auto).
  pose proof (appends_tuple _ _ T') as A. rewrite formats_values in A.
  destruct (proj2 (appends_fits _ _ A (nlen (formats args))) ltac:(lia)) as [w Ew]. exists (nlen (formats args)), w. split; [exact Ew|].
  exact (appends_new _ _ A _ w Ew).
Qed.
Lemma zip_typed ts : forall ds args, length ts = length ds -> zip_reads (map TPrim ts) ds (map VPrim args) -> Forall2 prim_typed ts args.
Proof.
  induction ts as [|t ts IH]; intros [|d ds] [|a args] L Z; try discriminate L; try contradiction Z; constructor.
  - apply (prim_reads_typed t d). apply Z.
  - apply (IH ds); [cbn in L; lia|apply Z].
Qed.
(** The transaction that such a document stands for. *)
Lemma document_encoded j target name ts args : call_document j target name ts args ->
  Forall2 prim_typed ts args /\
  exists t m, encode_call j = Ok (data_doc m) /\ bytes_ok m /\ nlen m < 2 ^ 32 /\ decoded dec_transaction m = Some t
    /\ tx_target t = target /\ tx_func_name t = name /\ tx_calldata t = flat_map prim_format args.
Proof.
  intros ((v & Fv & Lv) & Ft & Fn & Wn & (vd & vb & Fvd & Av & Lvd) & (c & ds & Fc & If & Ld & Z & Lc)).
  split; [eapply zip_typed; eauto|].
  set (t := mkTransaction v target name vb (flat_map prim_format args)).
  assert (FM : flat_map format (map VPrim args) = flat_map prim_format args) by (clear; induction args as [|a l IH]; [reflexivity|]; cbn; now rewrite IH).
  assert (D : call_doc j t).
  { split; [exact Fv|]. split; [exact Lv|]. split; [exact Ft|]. split; [exact Fn|]. split; [eauto|]. exists c. split; [exact Fc|]. right.
    exists (map TPrim ts), ds, (map VPrim args). split; [now left|]. split; [exact Z|]. now rewrite FM. }
  assert (W : transaction_wf t) by exact (call_doc_wf j t D Wn Lvd Lc).
  destruct (transaction_rt t W) as (m & Em & Rt).
  assert (X : encode_call_raw j = Ok m) by (apply encode_call_spec; eauto).
  exists t, m. split; [unfold encode_call; now rewrite X|]. split; [eapply enc_transaction_ok; eauto|].
  split; [|split; [|auto]].
  - assert (Ls : nlen name <= 255) by apply Wn. destruct Ft as (_ & _ & _ & Lt).
    unfold enc_transaction, enc_u16, enc_uint, enc_array in Em. cbn [obind t tx_target tx_func_name tx_verifydata tx_calldata] in Em.
    rewrite enc_string_some in Em by exact Ls. unfold enc_input in Em. cbn [obind] in Em.
    rewrite !enc_data_some in Em by (change (256 ^ N.of_nat 1) with 256; lia). cbn [obind] in Em.
    apply Some_inj in Em. subst m. unfold nlen in *. cbn [app]. rewrite !app_length. cbn [length]. rewrite !app_length, !be_bytes_length. lia.
  - unfold decoded. specialize (Rt []). rewrite app_nil_r in Rt. now rewrite Rt.
Qed.
(** Documents of receipts: only of those whose logs are text. *)
Lemma decoded_shows r bs doc : receipt_wf r -> enc_receipt r = Some bs -> decode_receipt (data_doc bs) = Ok doc -> shows r doc.
Proof.
  intros W E D. destruct (Forall_dec (fun l => utf8_valid l = true) ltac:(intros l; cbv beta; destruct (utf8_valid l); [now left|right; discriminate]) (wire_logs r)) as [T|T].
  - destruct (receipt_shown r W T) as (bs' & E' & j & Dj & S). rewrite E in E'. apply Some_inj in E'. subst bs'.
    specialize (Dj [] ltac:(constructor)). rewrite app_nil_r, D in Dj. injection Dj as ->. exact S.
  - exfalso. destruct (receipt_rt r W) as (bs' & E' & Rt). rewrite E in E'. apply Some_inj in E'. subst bs'.
    assert (B : bytes_ok bs) by exact (ok_receipt r W bs E).
    unfold decode_receipt in D. rewrite get_data_hex in D by exact B. cbn [bind] in D. destruct (0 <? nlen bs); [|discriminate D].
    cbn [ensure unwrap bind] in D. unfold decode_bytes in D. specialize (Rt []). rewrite app_nil_r in Rt. rewrite Rt in D. rewrite view_is in D. cbn [bind] in D.
    unfold wire_logs in T. destruct (view r) as [d|s|c]; cbn [receipt_success receipt_logs receipt_error] in *.
    + destruct (dr_success d).
      * unfold deploy_to_json in D. rewrite logs_abort in D by exact T. destruct (dr_error d), (dr_addr d); discriminate D.
      * destruct (dr_error d) as [err|]; [|discriminate D]. cbn [obind] in D. rewrite error_none_shown in D by exact T. discriminate D.
    + destruct (sr_success s).
      * unfold spawn_to_json in D. rewrite logs_abort in D by exact T. destruct (sr_error s), (sr_account s), (sr_init_state s), (sr_returndata s); discriminate D.
      * destruct (sr_error s) as [err|]; [|discriminate D]. cbn [obind] in D. rewrite error_none_shown in D by exact T. discriminate D.
    + destruct (cr_success c).
      * unfold call_to_json in D. rewrite logs_abort in D by exact T. destruct (cr_error c), (cr_new_state c), (cr_returndata c); discriminate D.
      * destruct (cr_error c) as [err|]; [|discriminate D]. cbn [obind] in D. rewrite error_none_shown in D by exact T. discriminate D.
Qed.
(** What the C interface answers to a call. *)
Lemma call_answered w lb p r ev v ctx c m data lb' : behind lb p = Some r -> rn_poisoned r = false ->
  envelope_wf ev -> enc_envelope ev = Some v -> context_wf ctx -> enc_context ctx = Some c ->
  capi_step w (COn p (QCall v m c)) lb = (RReceipt data, lb') ->
  exists rc g, rt_call (w_env w) (w_engine w) m (rn_gs r) = (Some rc, g) /\ enc_call_receipt rc = Some data.
Proof.
  intros B P We Ee Wc Ec X. destruct (step_on w p (QCall v m c) lb r B) as (lb2 & E2 & _). rewrite X in E2. injection E2 as E2 _.
  cbn [serve] in E2. unfold svm_call, svm_runtime_action, locked in E2.
  rewrite (decoded_envelope ev v We Ee), (decoded_context ctx c Wc Ec), P in E2.
  destruct (rt_call (w_env w) (w_engine w) m (rn_gs r)) as [[rc|] g]; cbn [fst answer] in E2; [|discriminate E2].
  exists rc, g. split; [reflexivity|]. unfold FfiModel.answer in E2. destruct (enc_call_receipt rc) as [b|]; [|discriminate E2].
  destruct (nlen b <=? 4294967295); [|discriminate E2]. congruence.
Qed.

(* ------------------------------------------------------------------------- *)
(** * Code that the SDK generates keeps memories well formed *)

(** Code that leaves a memory of bytes, and whose results satisfy [P]. *)
Inductive sound {A} (P : A -> Prop) : wasm A -> Prop :=
| so_return mem a : bytes_ok mem -> P a -> sound P (WReturn mem a)
| so_trap msg : sound P (WTrap msg)
| so_host mem c k : bytes_ok mem -> (forall v mem', bytes_ok mem' -> sound P (k v mem')) -> sound P (WHost mem c k).
Definition sound_code {A} (P : A -> Prop) (c : code A) : Prop := forall mem, bytes_ok mem -> sound P (c mem).
Lemma sound_wf {A} P (t : wasm A) : sound P t -> wasm_wf t.
Proof. induction 1; constructor; auto. Qed.
Lemma sound_wbind {A B} P Q (t : wasm A) (k : A -> bytes -> wasm B) :
  sound P t -> (forall a mem, P a -> bytes_ok mem -> sound Q (k a mem)) -> sound Q (wbind t k).
Proof. intros H K. induction H; cbn [wbind]; [auto|constructor|constructor; auto]. Qed.
Lemma sound_bind {A B} P Q (c : code A) (k : A -> code B) :
  sound_code P c -> (forall a, P a -> sound_code Q (k a)) -> sound_code Q (cbind c k).
Proof. intros H K mem M. unfold cbind. eapply sound_wbind; [apply H, M|]. intros a mem' Pa M'. now apply K. Qed.
Lemma sound_ret {A} (P : A -> Prop) a : P a -> sound_code P (cret a).
Proof. intros H mem M. now constructor. Qed.
Lemma sound_panic {A} (P : A -> Prop) : sound_code P cpanic.
Proof. intros mem M. constructor. Qed.
Lemma sound_some {A} (P : A -> Prop) o : (forall a, o = Some a -> P a) -> sound_code P (csome o).
Proof. destruct o; intros H; [now apply sound_ret, H|apply sound_panic]. Qed.
Lemma sound_call c : sound_code (fun _ => True) (host c).
Proof. intros mem M. constructor; [exact M|]. intros v mem' M'. now constructor. Qed.
Lemma sound_read p n : sound_code bytes_ok (mread p n).
Proof.
  intros mem M. unfold mread. apply sound_some; [|exact M]. intros bs E. unfold mem_read in E.
  destruct (p + n <=? nlen mem); [|discriminate E]. apply Some_inj in E. subst bs. apply Forall_firstn', Forall_skipn', M.
Qed.
Lemma sound_write p bs : bytes_ok bs -> sound_code (fun _ => True) (mwrite p bs).
Proof.
  intros B mem M. unfold mwrite. destruct (mem_write mem p bs) as [mem'|] eqn:E; [|constructor]. constructor; [|exact Logic.I].
  unfold mem_write in E. destruct (p + nlen bs <=? nlen mem); [|discriminate E]. apply Some_inj in E. subst mem'.
  apply Forall_app. split; [now apply Forall_firstn'|]. apply Forall_app. split; [exact B|now apply Forall_skipn'].
Qed.
(** What a contract holds is within its type. *)
Definition held_ok (h : held) : Prop :=
  match h with HInt t z => AbiSpec.in_range t z | HAmount n => n < 2 ^ 64 | HBool _ | HPtr _ => True end.
Definition hval_ok (v : hval) : Prop :=
  match v with HVal h | HOpt (Some h) => held_ok h | HArr l => Forall held_ok l | HUnit | HOpt None => True end.
Lemma sound_push p cap len b : b < 256 -> sound_code (fun _ => True) (push_at p cap len b).
Proof.
  intros B. unfold push_at. destruct (len <? cap); [|apply sound_panic]. eapply sound_bind; [apply sound_write; repeat constructor; exact B|].
  intros _ _. now apply sound_ret.
Qed.
Lemma sound_pushes p cap bs : bytes_ok bs -> forall len, sound_code (fun _ => True) (pushes_at p cap len bs).
Proof.
  induction 1 as [|b bs B _ IH]; intros len; cbn [pushes_at]; [now apply sound_ret|]. eapply sound_bind; [now apply sound_push|]. intros; apply IH.
Qed.
Lemma sound_copy p cap n : forall len q, sound_code (fun _ => True) (copy_at p cap len q n).
Proof.
  induction n as [|n IH]; intros len q; cbn [copy_at]; [now apply sound_ret|]. eapply sound_bind; [apply sound_read|]. intros bs B.
  eapply sound_bind; [now apply sound_pushes|]. intros; apply IH.
Qed.
Lemma sound_held p cap len h : held_ok h -> sound_code (fun _ => True) (encode_held p cap len h).
Proof.
  intros O. destruct h as [b|t z|n|q]; cbn [encode_held].
  1-3: rewrite (pushed_format []); [|exact O|intros a X; discriminate X]; cbn [csome]; eapply (sound_bind bytes_ok);
    [apply sound_ret; apply prim_format_ok; exact O|intros; now apply sound_pushes].
  eapply sound_bind; [apply sound_push; reflexivity|]. intros; apply sound_copy.
Qed.
Lemma sound_helds p cap hs : Forall held_ok hs -> forall len, sound_code (fun _ => True) (encode_helds p cap len hs).
Proof.
  induction 1 as [|h hs O _ IH]; intros len; cbn [encode_helds]; [now apply sound_ret|]. eapply sound_bind; [now apply sound_held|]. intros; apply IH.
Qed.
Lemma array_byte n : n < 11 -> layout_array n < 256.
Proof. intros L. assert (X : forallb (fun n => layout_array n <? 256) (map N.of_nat (seq 0 11)) = true) by (vm_compute; reflexivity).
  rewrite forallb_forall in X. specialize (X n). rewrite N.ltb_lt in X. apply X. apply in_map_iff. exists (N.to_nat n). split; [lia|]. apply in_seq. lia.
Qed.
Lemma sound_hval p cap len v : hval_ok v -> sound_code (fun _ => True) (encode_hval p cap len v).
Proof.
  destruct v as [|h|[h|]|l]; cbn [hval_ok encode_hval]; intros O; try (now apply sound_held); try (apply sound_push; reflexivity).
  destruct (N.ltb_spec (nlen l) 11); [|apply sound_panic]. eapply sound_bind; [apply sound_push; now apply array_byte|]. intros; now apply sound_helds.
Qed.
Lemma sound_hvals p cap vs : Forall hval_ok vs -> forall len, sound_code (fun _ => True) (encode_hvals p cap len vs).
Proof.
  induction 1 as [|v vs O _ IH]; intros len; cbn [encode_hvals]; [now apply sound_ret|]. eapply sound_bind; [now apply sound_hval|]. intros; apply IH.
Qed.
Lemma sound_epilogue ret vs : Forall hval_ok vs -> sound_code (fun _ => True) (epilogue ret vs).
Proof.
  intros O. destruct ret as [ts|]; cbn [epilogue]; [|now apply sound_ret]. eapply sound_bind; [apply sound_call|]. intros p _.
  eapply sound_bind; [now apply sound_hvals|]. intros len _. destruct (0 <? len); [|now apply sound_ret].
  eapply sound_bind; [apply sound_call|]. intros; now apply sound_ret.
Qed.
Lemma read_args_ok ts : forall base c hs, bytes_ok (cu_bytes c) -> read_args base ts c = Some hs -> Forall held_ok hs.
Proof.
  induction ts as [|t ts IH]; intros base c hs B E; cbn [read_args] in E; [apply Some_inj in E; subst; constructor|].
  destruct (calldata_next c) as [[[v c']|]|] eqn:Nx; cbn [obind] in E; try discriminate E.
  destruct (into_prim t v) as [p|] eqn:Ip; [|discriminate E]. cbn [obind] in E.
  destruct (held_at (base + cu_offset c) p) as [h|] eqn:Hh; [|discriminate E]. cbn [obind] in E.
  destruct (read_args base ts c') as [hs'|] eqn:Ra; [|discriminate E]. cbn [obind] in E. apply Some_inj in E. subst hs.
  assert (A : advances c c' /\ flat v).
  { unfold calldata_next in Nx. destruct (is_eof c); [discriminate Nx|]. destruct (decode_value c) as [[v0 c0]|?|] eqn:D; try discriminate Nx.
    injection Nx as <- <-. exact (decode_value_any _ _ _ B D). }
  destruct A as [A F]. constructor.
  - unfold into_prim in Ip. destruct v as [q|]; [|discriminate Ip]. destruct (prim_is t q); [|discriminate Ip]. apply Some_inj in Ip. subst q.
    destruct p; cbn [held_at] in Hh; try discriminate Hh; apply Some_inj in Hh; subst h; exact F || exact Logic.I.
  - eapply IH; [|exact Ra]. destruct A as [-> _]. exact B.
Qed.
Lemma sound_endpoint ts ret body : (forall hs, Forall held_ok hs -> sound_code (Forall hval_ok) (body hs)) ->
  sound_code (fun _ => True) (endpoint ts ret body).
Proof.
  intros Hb. unfold endpoint. eapply (sound_bind (Forall held_ok)).
  - unfold prologue. destruct ts as [|t ts]; [now apply sound_ret|]. eapply (sound_bind (fun x => bytes_ok (snd x))).
    + unfold node_calldata. eapply sound_bind; [apply sound_call|]. intros o _. eapply sound_bind; [apply sound_call|]. intros l _.
      eapply sound_bind; [apply sound_read|]. intros bs Bs. now apply sound_ret.
    + intros [base bs] Bs. apply sound_some. intros hs E. eapply read_args_ok; [|exact E]. exact Bs.
  - intros hs Hs. eapply sound_bind; [now apply Hb|]. intros vs Hv. now apply sound_epilogue.
Qed.
(** Its traps say nothing. *)
Lemma texts_wbind {A B} (t : wasm A) (k : A -> bytes -> wasm B) : trap_texts t -> (forall a mem, trap_texts (k a mem)) -> trap_texts (wbind t k).
Proof. intros H K. induction H; cbn [wbind]; [auto|now constructor|now constructor]. Qed.
Definition text_code {A} (c : code A) : Prop := forall mem, trap_texts (c mem).
Lemma text_bind {A B} (c : code A) (k : A -> code B) : text_code c -> (forall a, text_code (k a)) -> text_code (cbind c k).
Proof. intros H K mem. unfold cbind. apply texts_wbind; [apply H|]. intros a mem'. apply K. Qed.
Lemma text_nil : text_wf [].
Proof. split; [constructor|reflexivity]. Qed.
Lemma text_some {A} (o : option A) : text_code (csome o).
Proof. intros mem. destruct o; constructor. exact text_nil. Qed.
Lemma text_host c : text_code (host c).
Proof. intros mem. constructor. intros; constructor. Qed.
Lemma text_read p n : text_code (mread p n).
Proof. intros mem. unfold mread. apply text_some. Qed.
Lemma text_write p bs : text_code (mwrite p bs).
Proof. intros mem. unfold mwrite. destruct (mem_write mem p bs); constructor. exact text_nil. Qed.
Lemma text_push p cap len b : text_code (push_at p cap len b).
Proof. unfold push_at. destruct (len <? cap); [|exact (text_some None)]. apply text_bind; [apply text_write|]. intros. exact (text_some (Some _)). Qed.
Lemma text_pushes p cap bs : forall len, text_code (pushes_at p cap len bs).
Proof. induction bs as [|b bs IH]; intros len; cbn [pushes_at]; [exact (text_some (Some _))|]. apply text_bind; [apply text_push|intros; apply IH]. Qed.
Lemma text_copy p cap n : forall len q, text_code (copy_at p cap len q n).
Proof.
  induction n as [|n IH]; intros len q; cbn [copy_at]; [exact (text_some (Some _))|]. apply text_bind; [apply text_read|]. intros bs.
  apply text_bind; [apply text_pushes|intros; apply IH].
Qed.
Lemma text_held p cap len h : text_code (encode_held p cap len h).
Proof.
  destruct h; cbn [encode_held]; (apply text_bind; [apply text_some || apply text_push|intros; apply text_pushes || apply text_copy]).
Qed.
Lemma text_helds p cap hs : forall len, text_code (encode_helds p cap len hs).
Proof. induction hs as [|h hs IH]; intros len; cbn [encode_helds]; [exact (text_some (Some _))|]. apply text_bind; [apply text_held|intros; apply IH]. Qed.
Lemma text_hval p cap len v : text_code (encode_hval p cap len v).
Proof.
  destruct v as [|h|[h|]|l]; cbn [encode_hval]; try apply text_push; try apply text_held.
  destruct (nlen l <? 11); [|exact (text_some None)]. apply text_bind; [apply text_push|intros; apply text_helds].
Qed.
Lemma text_hvals p cap vs : forall len, text_code (encode_hvals p cap len vs).
Proof. induction vs as [|v vs IH]; intros len; cbn [encode_hvals]; [exact (text_some (Some _))|]. apply text_bind; [apply text_hval|intros; apply IH]. Qed.
Lemma text_endpoint ts ret body : (forall hs, text_code (body hs)) -> text_code (endpoint ts ret body).
Proof.
  intros Hb. unfold endpoint. apply text_bind.
  - unfold prologue. destruct ts as [|t ts]; [exact (text_some (Some _))|]. apply text_bind.
    + unfold node_calldata. apply text_bind; [apply text_host|]. intros. apply text_bind; [apply text_host|]. intros.
      apply text_bind; [apply text_read|]. intros. exact (text_some (Some _)).
    + intros [base bs]. apply text_some.
  - intros hs. apply text_bind; [apply Hb|]. intros vs. destruct ret as [rts|]; cbn [epilogue]; [|exact (text_some (Some _))].
    apply text_bind; [apply text_host|]. intros p. apply text_bind; [apply text_hvals|]. intros len.
    destruct (0 <? len); [|exact (text_some (Some _))]. apply text_bind; [apply text_host|]. intros. exact (text_some (Some _)).
Qed.

(* ------------------------------------------------------------------------- *)
(** * Spawns *)

Lemma spawn_encoded j template name ctor ts args : spawn_document j template name ctor ts args ->
  Forall2 prim_typed ts args /\ array_wf 20 template /\
  exists s m, encode_spawn j = Ok m /\ bytes_ok m /\ nlen m < 2 ^ 32 /\ decoded dec_spawn m = Some s
    /\ sp_template s = template /\ sp_name s = name /\ sp_ctor s = ctor /\ sp_calldata s = flat_map prim_format args.
Proof.
  intros ((v & Fv & Lv) & Ft & Fn & Wn & Fk & Wk & (c & ds & Fc & If & Ld & Z & Lc)).
  split; [eapply zip_typed; eauto|].
  set (t := mkSpawn v template name ctor (flat_map prim_format args)).
  assert (FM : flat_map format (map VPrim args) = flat_map prim_format args) by (clear; induction args as [|a l IH]; [reflexivity|]; cbn; now rewrite IH).
  assert (D : spawn_doc j t).
  { split; [exact Fv|]. split; [exact Lv|]. split; [exact Ft|]. split; [exact Fn|]. split; [exact Fk|]. exists c. split; [exact Fc|]. right.
    exists (map TPrim ts), ds, (map VPrim args). split; [now left|]. split; [exact Z|]. now rewrite FM. }
  assert (W : spawn_wf t) by exact (spawn_doc_wf j t D Wn Wk Lc).
  split; [apply W|].
  destruct (spawn_rt t W) as (m & Em & Rt).
  assert (X : encode_spawn j = Ok m) by (apply encode_spawn_spec; eauto).
  exists t, m. split; [exact X|]. split; [eapply enc_spawn_ok; eauto|].
  split; [|split; [|auto]].
  - assert (Ls : nlen name <= 255) by apply Wn. assert (Lk : nlen ctor <= 255) by apply Wk. destruct Ft as (_ & _ & _ & Lt).
    unfold enc_spawn, enc_u16, enc_uint, enc_array in Em. cbn [obind t sp_template sp_name sp_ctor sp_calldata] in Em.
    rewrite !enc_string_some in Em by assumption. unfold enc_input in Em. cbn [obind] in Em.
    rewrite !enc_data_some in Em by (change (256 ^ N.of_nat 1) with 256; lia). cbn [obind] in Em.
    apply Some_inj in Em. subst m. unfold nlen in *. cbn [app]. rewrite !app_length. cbn [length]. rewrite !app_length. cbn [length]. rewrite ?app_length, ?be_bytes_length. lia.
  - unfold decoded. specialize (Rt []). rewrite app_nil_r in Rt. now rewrite Rt.
Qed.
Lemma spawn_answered w lb p r ev v ctx c m data lb' : behind lb p = Some r -> rn_poisoned r = false ->
  envelope_wf ev -> enc_envelope ev = Some v -> context_wf ctx -> enc_context ctx = Some c ->
  capi_step w (COn p (QSpawn v m c)) lb = (RReceipt data, lb') ->
  exists rc pc g, spawn (w_env w) (w_engine w) ev m (rn_cache r) (rn_gs r) = (Some rc, pc, g) /\ enc_spawn_receipt rc = Some data
    /\ behind lb' p = Some (mkRuntime g pc false).
Proof.
  intros B P We Ee Wc Ec X. destruct (step_on w p (QSpawn v m c) lb r B) as (lb2 & E2 & B2). rewrite X in E2. injection E2 as E2 ->.
  cbn [serve] in E2, B2. unfold svm_spawn, svm_runtime_action, locked in E2, B2.
  rewrite (decoded_envelope ev v We Ee), (decoded_context ctx c Wc Ec), P in E2, B2.
  destruct (spawn (w_env w) (w_engine w) ev m (rn_cache r) (rn_gs r)) as [[[rc|] pc] g]; cbn [fst snd] in E2, B2; [|discriminate E2].
  exists rc, pc, g. split; [reflexivity|]. unfold FfiModel.answer in E2. destruct (enc_spawn_receipt rc) as [b|]; [|discriminate E2].
  destruct (nlen b <=? 4294967295); [|discriminate E2]. split; [congruence|exact B2].
Qed.
(** A spawn that succeeds executed the constructor in an account of the template. *)
Lemma spawn_executed e en ev m c g rc c' g' sp : iterates e -> collision_free e -> hash_wf e -> live e g -> bytes_ok m ->
  decoded dec_spawn m = Some sp -> spawn e en ev m c g = (Some rc, c', g') -> sr_success rc = true ->
  exists g1 rc1, exec_call e en (mkCall (sp_ctor sp) (sp_calldata sp) (account_addr e (sp_template sp)) (sp_template sp) true FullAccess) g1 = (Some rc1, g')
    /\ cr_success rc1 = true /\ sr_returndata rc = cr_returndata rc1
    /\ fst (account_template e (account_addr e (sp_template sp)) g1) = Ok (sp_template sp)
    /\ fst (template_sections e (sp_template sp) g1) = fst (template_sections e (sp_template sp) g).
Proof.
  intros HI HC HH HL Hm Ed E Hok. pose proof (live_typed e g HI HC HL) as HT. unfold spawn in E. rewrite Ed in E.
  assert (Hsp : spawn_wf sp) by (eapply decoded_canon; eauto using spawn_canon). destruct Hsp as [S1 S2 S3 S4 S5].
  pose proof (reads_sections e (sp_template sp) g) as R1.
  destruct (template_sections e (sp_template sp) g) as [[l|?|] g0] eqn:El; cbn [snd] in R1; subst; try discriminate.
  pose proof (reads_exec_prefix sp l g) as R2.
  destruct (ensure_ctor _ _ _ g) as [[[]|[? ?]|] g0]; cbn [snd] in R2; subst; try discriminate.
  2:{ injection E as <- _ _. discriminate. }
  destruct (check_gas_for_func _ _ _ _ _ _) as [[[n|]|] c1]; try discriminate.
  2:{ injection E as <- _ _. discriminate. }
  set (new := account_addr e (sp_template sp)) in *.
  assert (Hnew : array_wf 20 new) by now apply addr_wf.
  assert (EF : forall a g1, account_create e new (sp_name sp) (sp_template sp) 0 0 g = (Ok a, g1) ->
     only e (fun t => t = TImm new \/ t = TMut new) g g1
     /\ fields_of e new g1 = (Ok (sp_name sp), Ok (sp_template sp), Ok 0, Ok 0)).
  { intros a g1. unfold account_create, gbind. pose proof (reads_layout e (sp_template sp) g) as RL.
    destruct (template_layout e (sp_template sp) g) as [[lay|?|] g0]; cbn [snd] in *; subst; try discriminate.
    destruct (write_account_effect e new (sp_name sp) (sp_template sp) 0 0 g) as (g2 & -> & _ & O & F); auto; try reflexivity.
    cbn [gret]. intros [= _ <-]. split; auto. apply F, HL. }
  destruct (account_create e new _ _ 0 0 g) as [[a|?|] g1]; try discriminate.
  destruct (EF a g1 eq_refl) as [O F]. unfold call_ctor in E. fold new in E.
  destruct (exec_call e en _ g1) as [[rc1|] g2] eqn:Ex; [|discriminate E].
  exists g1, rc1. unfold into_spawn_receipt in E. cbn [cr_success cr_returndata] in E.
  destruct (cr_success rc1) eqn:Es.
  - injection E as <- _ <-. split; [exact Ex|]. split; [reflexivity|]. split; [reflexivity|]. unfold fields_of in F. split; [congruence|].
    rewrite <- El. eapply only_sections; [exact O|exact S2| |]; intros [Q|Q]; discriminate.
  - cbn [cr_error] in E. destruct (cr_error rc1); [|discriminate E]. injection E as <- _ _. discriminate Hok.
Qed.
Lemma answered_snoc w lb0 tr lb o a lb' : answered w lb0 tr lb -> capi_step w o lb = (a, lb') -> answered w lb0 (tr ++ [(o, a)]) lb'.
Proof.
  unfold answered. intros H X. rewrite !map_app, run_app, H. cbn [map fst snd capi_run]. now rewrite X.
Qed.
