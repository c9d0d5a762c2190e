(** Proofs for TripAnyProps. *)
From Coq Require Import String List NArith ZArith Bool Lia ZifyBool ZifyNat ZifyN.
From Verif Require Import Base Text CodecModel CodecSpec CodecProofs ReceiptModel ReceiptSpec ReceiptProofs.
From Verif Require Import SectionModel SectionSpec SectionProofs StorageModel StorageSpec StorageProofs.
From Verif Require Import GlobalModel GlobalSpec GlobalProofs RuntimeModel RuntimeSpec RuntimeProofs.
From Verif Require Import SdkModel AbiModel AbiSpec AbiProofs TypedModel TypedProofs EndpointModel EndpointSpec EndpointProofs.
From Verif Require Import FfiModel FfiSpec FfiProofs FfiProps AnswerSpec AnswerProofs AnswerProps.
From Verif Require Import JsonModel JsonSpec JsonProofs JsonProps TripSpec TripProofs ParamModel ParamSpec ParamProofs TripAnySpec.
Import ListNotations.
Open Scope list_scope.
Open Scope N_scope.

(** What a document gives is encoded as its bytes. *)
Lemma given_bytes c args : given c args -> arg_bytes c (flat_map format (map rust_value args)).
Proof. intros [(ts & ds & A & _ & Z)|(s & -> & Sp)]; [right; exists ts, ds, (map rust_value args); auto|left; eauto]. Qed.
Lemma any_encodes ts args : Forall2 typed ts args -> encodes_any args (flat_map format (map rust_value args)).
Proof.
  intros T. pose proof (appends_tuple _ _ T) as A. fold (EndpointProofs.answer args) in A |- *.
  destruct (proj2 (appends_fits _ _ A (nlen (EndpointProofs.answer args))) ltac:(lia)) as [w Ew]. exists (nlen (EndpointProofs.answer args)), w. split; [exact Ew|].
  exact (appends_new _ _ A _ w Ew).
Qed.
Lemma any_short vl ts n : 12 <= vl_size vl -> n <= 255 -> short vl ts n.
Proof. intros. left. lia. Qed.
Lemma any_document_encoded j target name ts args : call_document_any j target name ts args ->
  Forall2 typed ts args /\ nlen (flat_map format (map rust_value args)) <= 255 /\
  exists t m, encode_call j = Ok (data_doc m) /\ bytes_ok m /\ nlen m < 2 ^ 32 /\ decoded dec_transaction m = Some t
    /\ tx_target t = target /\ tx_func_name t = name /\ tx_calldata t = flat_map format (map rust_value args).
Proof.
  intros ((v & Fv & Lv) & Ft & Fn & Wn & (vd & vb & Fvd & Av & Lvd) & (c & Fc & Gv & T & Lc)).
  split; [exact T|]. split; [exact Lc|]. apply given_bytes in Gv. set (cd := flat_map format (map rust_value args)) in *. clearbody cd.
  set (t := mkTransaction v target name vb cd).
  assert (D : call_doc j t).
  { split; [exact Fv|]. split; [exact Lv|]. split; [exact Ft|]. split; [exact Fn|]. split; [eauto|]. exists c. auto. }
  assert (W : transaction_wf t) by exact (call_doc_wf j t D Wn Lvd Lc).
  destruct (transaction_rt t W) as (m & Em & Rt).
  assert (X : encode_call_raw j = Ok m) by (apply encode_call_spec; eauto).
  exists t, m. split; [unfold encode_call; now rewrite X|]. split; [eapply enc_transaction_ok; eauto|].
  split; [|split; [|auto]].
  - assert (Ls : nlen name <= 255) by apply Wn. destruct Ft as (_ & _ & _ & Lt).
    unfold enc_transaction, enc_u16, enc_uint, enc_array in Em. cbn [obind t tx_target tx_func_name tx_verifydata tx_calldata] in Em.
    rewrite enc_string_some in Em by exact Ls. unfold enc_input in Em. cbn [obind] in Em.
    rewrite !enc_data_some in Em by (change (256 ^ N.of_nat 1) with 256; lia). cbn [obind] in Em.
    apply Some_inj in Em. subst m. unfold nlen in *. cbn [app]. rewrite !app_length. cbn [length]. rewrite !app_length, !be_bytes_length. lia.
  - unfold decoded. specialize (Rt []). rewrite app_nil_r in Rt. now rewrite Rt.
Qed.
Lemma any_spawn_encoded j template name ctor ts args : spawn_document_any j template name ctor ts args ->
  Forall2 typed ts args /\ nlen (flat_map format (map rust_value args)) <= 255 /\ array_wf 20 template /\
  exists s m, encode_spawn j = Ok m /\ bytes_ok m /\ nlen m < 2 ^ 32 /\ decoded dec_spawn m = Some s
    /\ sp_template s = template /\ sp_name s = name /\ sp_ctor s = ctor /\ sp_calldata s = flat_map format (map rust_value args).
Proof.
  intros ((v & Fv & Lv) & Ft & Fn & Wn & Fk & Wk & (c & Fc & Gv & T & Lc)).
  split; [exact T|]. split; [exact Lc|]. apply given_bytes in Gv. set (cd := flat_map format (map rust_value args)) in *. clearbody cd.
  set (t := mkSpawn v template name ctor cd).
  assert (D : spawn_doc j t).
  { split; [exact Fv|]. split; [exact Lv|]. split; [exact Ft|]. split; [exact Fn|]. split; [exact Fk|]. exists c. auto. }
  assert (W : spawn_wf t) by exact (spawn_doc_wf j t D Wn Wk Lc).
  split; [apply W|].
  destruct (spawn_rt t W) as (m & Em & Rt).
  assert (X : encode_spawn j = Ok m) by (apply encode_spawn_spec; eauto).
  exists t, m. split; [exact X|]. split; [eapply enc_spawn_ok; eauto|].
  split; [|split; [|auto]].
  - assert (Ls : nlen name <= 255) by apply Wn. assert (Lk : nlen ctor <= 255) by apply Wk. destruct Ft as (_ & _ & _ & Lt).
    unfold enc_spawn, enc_u16, enc_uint, enc_array in Em. cbn [obind t sp_template sp_name sp_ctor sp_calldata] in Em.
    rewrite !enc_string_some in Em by assumption. unfold enc_input in Em. cbn [obind] in Em.
    rewrite !enc_data_some in Em by (change (256 ^ N.of_nat 1) with 256; lia). cbn [obind] in Em.
    apply Some_inj in Em. subst m. unfold nlen in *. cbn [app]. rewrite !app_length. cbn [length]. rewrite !app_length. cbn [length]. rewrite ?app_length, ?be_bytes_length. lia.
  - unfold decoded. specialize (Rt []). rewrite app_nil_r in Rt. now rewrite Rt.
Qed.
Lemma any_success_returned e en cl g r g' code vl ts rts body args Q :
  vlayout_wf vl -> has_code e g (cl_target cl) code -> compiled_any vl en code (cl_func cl) ts (Some rts) body ->
  Forall2 typed ts args -> encodes_any args (cl_input cl) -> short vl ts (nlen (cl_input cl)) ->
  answers_any e body args (nlen (cl_input cl)) rts Q ->
  exec_call e en cl g = (Some r, g') -> cr_success r = true ->
  exists vs, cr_returndata r = Some (flat_map format (map rust_value vs)) /\ Forall2 typed rts vs /\ Q vs.
Proof.
  intros W Hc Hx T Ein Sh HA Ex Hs.
  destruct (success_any e en cl g r g' code vl ts (Some rts) body args W Hc Hx T Ein Sh Ex Hs) as (hs & mem & f & g1 & mem' & f' & g2 & D & L & _ & Em & Er).
  apply main_any_inv in Em as (rs & mem1 & f1 & g3 & Eb & Ee).
  destruct (HA hs mem f g1 rs mem1 f1 g3 D L Eb) as (vs & Tv & St & B & L1 & HQ).
  pose proof (proj1 (epilogue_run e rts vs rs mem1 f1 g3 Tv St B L1) mem' f' g2 Ee) as X.
  exists vs. split; [|auto]. rewrite Er, X. reflexivity.
Qed.
(** Values in their usual spelling are shown as they were given. *)
Lemma prim_reads_same t t' j p : prim_reads t' j p -> prim_typed t p -> t' = t.
Proof.
  intros R [_ T]. destruct t as [| | |t]; destruct T as [x ->]; destruct t' as [| | |t']; cbn [prim_reads] in R; try contradiction R; auto.
  destruct R as [-> _]. reflexivity.
Qed.
Lemma normal_any_shown t s j v : normal_any t j -> typed t v -> reads s j (rust_value v) -> show_rust v = j.
Proof.
  destruct t as [|t|t|t n], v as [|p|o|l]; cbn [normal_any typed]; intros Nm T R; try contradiction.
  - cbn [rust_value] in R. destruct s as [t'|[|? [|? ?]]]; cbn [reads] in R; try contradiction R.
    rewrite (prim_reads_same t t' j p R T) in R. eapply normal_prim_shown; eauto.
  - cbn [rust_value] in R. destruct Nm as (js & -> & Nm), T as (_ & _ & F). cbn [show_rust]. f_equal.
    destruct s as [t'|[|s [|? ?]]]; cbn [reads] in R; try contradiction R. destruct R as (js' & Ej & _ & R). injection Ej as <-.
    clear n. revert js Nm R. induction F as [|p l Tp _ IH]; intros js Nm R; cbn [map] in R |- *; inversion R as [|j ? js' ? R1 R2]; subst; [reflexivity|].
    inversion_clear Nm as [|? ? N1 N2]. f_equal; [|apply IH; assumption].
    destruct s as [t'|[|? [|? ?]]]; cbn [reads] in R1; try contradiction R1.
    rewrite (prim_reads_same t t' j p R1 Tp) in R1. eapply normal_prim_shown; eauto.
Qed.
Lemma normal_any_all ts : forall sigs ds vs, Forall2 normal_any ts ds -> Forall2 typed ts vs -> length sigs = length ds -> zip_reads sigs ds (map rust_value vs) -> map show_rust vs = ds.
Proof.
  induction ts as [|t ts IH]; intros sigs ds vs Nm T L Z; inversion Nm as [|? d ? ds' N1 N2]; subst; inversion T as [|? v ? vs' T1 T2]; subst; [reflexivity|].
  destruct sigs as [|s sigs]; [discriminate L|]. cbn [map zip_reads] in Z |- *. destruct Z as [Z1 Z2]. f_equal; [eapply normal_any_shown; eauto|].
  eapply IH; eauto.
Qed.

(** ** Results *)
Lemma typed_shown t p : prim_typed t p -> prim_sig p = Some (JStr (type_name t)) /\ prim_to_json p = Some (show_prim p).
Proof. intros T. exact (prim_shown t (show_prim p) p (typed_reads t p T)). Qed.
Lemma all_shown t l : Forall (prim_typed t) l -> all_some sdk_value_to_json (map VPrim l) = Some (map show_prim l).
Proof.
  intros F. apply all_some_spec. induction F as [|p l T _ IH]; cbn [map]; constructor; [|exact IH]. exact (proj2 (typed_shown t p T)).
Qed.
Lemma last_shown t l : Forall (prim_typed t) l -> l <> [] -> ty_sig_of_sdk_value (VVec (map VPrim l)) = Some (JArr [JStr (type_name t)]).
Proof.
  intros F Ne. cbn [ty_sig_of_sdk_value]. induction F as [|p l T F IH]; [now elim Ne|]. destruct l as [|q l].
  - cbn [map ty_sig_of_sdk_value]. rewrite (proj1 (typed_shown t p T)). reflexivity.
  - apply IH. discriminate.
Qed.
Lemma result_shown t v : typed t v -> ~ array_of_eight (rust_value v) ->
  result_doc t v = match ty_sig_of_sdk_value (rust_value v), sdk_value_to_json (rust_value v) with Some s, Some d => Some (s, d) | _, _ => None end.
Proof.
  destruct t as [|t|t|t n], v as [|p|[p|]|l]; cbn [typed]; intros T N8; try contradiction T; cbn [rust_value result_doc]; try reflexivity.
  - cbn [ty_sig_of_sdk_value sdk_value_to_json]. now destruct (typed_shown t p T) as [-> ->].
  - cbn [ty_sig_of_sdk_value sdk_value_to_json]. now destruct (typed_shown t p T) as [-> ->].
  - destruct T as (En & _ & F). cbn [rust_value array_of_eight] in N8. unfold nlen in N8. rewrite map_length in N8. fold (nlen l) in N8.
    replace (n =? 8) with false by lia. cbn [sdk_value_to_json]. rewrite (all_shown t l F). cbn [obind].
    destruct (N.eqb_spec n 0) as [->|Nz].
    + destruct l; [reflexivity|]. rewrite nlen_cons in En. lia.
    + rewrite (last_shown t l F); [reflexivity|]. intros ->. apply Nz. now rewrite <- En.
Qed.
Lemma results_loop ts : forall vs fuel pre, Forall2 typed ts vs -> (length vs <= fuel)%nat ->
  calldata_loop fuel (at_ pre (flat_map format (map rust_value vs)))
  = match result_docs ts vs with Some ds => Some (map fst ds, map snd ds) | None => None end.
Proof.
  induction ts as [|t ts IH]; intros vs fuel pre T Fu; inversion T as [|? v ? vs' T1 T2]; subst.
  - destruct fuel; cbn [map flat_map calldata_loop]; rewrite next_end; reflexivity.
  - destruct fuel as [|fuel]; [cbn in Fu; lia|]. cbn [calldata_loop map flat_map result_docs]. destruct (eight_dec (rust_value v)) as [N8|N8].
    + rewrite next_eight by (eauto using typed_flat). destruct t as [|t|t|t n], v as [|p|[p|]|l]; try contradiction T1; try contradiction N8.
      destruct T1 as (En & _). cbn [rust_value array_of_eight] in N8. unfold nlen in N8. rewrite map_length in N8. fold (nlen l) in N8.
      cbn [result_doc]. replace (n =? 8) with true by lia. reflexivity.
    + rewrite next_ok by (eauto using typed_flat). cbn [obind]. rewrite (result_shown t v T1 N8).
      destruct (ty_sig_of_sdk_value (rust_value v)) as [sg|]; [|reflexivity]. destruct (sdk_value_to_json (rust_value v)) as [d|]; [|reflexivity]. cbn [obind].
      rewrite (IH vs' fuel _ T2) by (cbn in Fu; lia). destruct (result_docs ts vs') as [ds|]; reflexivity.
Qed.
Lemma results_shown rts vs : Forall2 typed rts vs -> decode_inputdata (data_doc (flat_map format (map rust_value vs))) = results_doc rts vs.
Proof.
  intros T. unfold decode_inputdata.
  rewrite get_data_hex by (apply formats_ok; apply Forall_map; clear -T; induction T; constructor; eauto using typed_flat). cbn [bind]. unfold calldata_to_json, results_doc.
  pose proof (results_loop rts vs (length (flat_map format (map rust_value vs))) [] T ltac:(etransitivity; [|apply values_length]; rewrite map_length; reflexivity)) as X.
  unfold at_ in X. cbn [app] in X. change (nlen (@nil N)) with 0 in X. unfold calldata_new. rewrite X. destruct (result_docs rts vs); reflexivity.
Qed.
Lemma presentable_doc rts vs : Forall presentable rts -> Forall2 typed rts vs -> results_doc rts vs = Ok (values_doc rts vs).
Proof. intros P T. rewrite <- results_shown by exact T. now apply values_shown. Qed.

(* ------------------------------------------------------------------------- *)
(** * Code that the SDK generates keeps memories well formed *)

Lemma sound_dec {A} (P : A -> Prop) d : (forall a, d = Ok a -> P a) -> sound_code P (cdec d).
Proof. destruct d; cbn [cdec]; intros H; [now apply sound_ret, H|apply sound_panic|apply sound_panic]. Qed.
Lemma text_dec {A} (d : dec A) : text_code (cdec d).
Proof. destruct d; [exact (text_some (Some _))|exact (text_some None)|exact (text_some None)]. Qed.
Lemma sound_weaken {A} (P Q : A -> Prop) c : (forall a, P a -> Q a) -> sound_code P c -> sound_code Q c.
Proof. intros I H mem M. specialize (H mem M). induction H; constructor; auto. Qed.
Lemma held_prim_sound t q p h : prim_ok p -> held_prim t q p = Some h -> held_ok h.
Proof.
  intros O E. unfold held_prim, into_prim in E. destruct (prim_is t p); [|discriminate E]. cbn [obind] in E.
  destruct p; cbn [held_at] in E; try discriminate E; apply Some_inj in E; subst h; exact O || exact Logic.I.
Qed.
Lemma held_prims_sound t es : Forall (fun x => prim_ok (snd x)) es -> forall hs, held_prims t es = Some hs -> Forall held_ok hs.
Proof.
  induction 1 as [|[q p] es O _ IH]; intros hs E; cbn [held_prims] in E; [apply Some_inj in E; subst; constructor|].
  destruct (held_prim t q p) as [h|] eqn:Eh; [|discriminate E]. cbn [obind] in E. destruct (held_prims t es) as [hs'|]; [|discriminate E]. cbn [obind] in E.
  apply Some_inj in E. subst hs. constructor; [eapply held_prim_sound; eauto|auto].
Qed.
Lemma array_arg_sound t es h : Forall (fun x => prim_ok (snd x)) es -> array_arg t es = Some h -> hval_ok h.
Proof.
  intros F E. destruct t as [|t|t|t n]; try discriminate E. cbn [array_arg] in E. destruct (nlen es =? n); [|discriminate E]. cbn [ensure obind] in E.
  destruct (held_prims t es) as [hs|] eqn:Eh; [|discriminate E]. cbn [obind] in E. apply Some_inj in E. subst h. cbn [hval_ok]. eapply held_prims_sound; eauto.
Qed.
Lemma prim_arg_sound t q p h : prim_ok p -> prim_arg t q p = Some h -> hval_ok h.
Proof.
  intros O E. destruct t as [|t|t|t n]; cbn [prim_arg] in E.
  - destruct p; try discriminate E. apply Some_inj in E. subst h. exact Logic.I.
  - destruct (held_prim t q p) as [x|] eqn:Eh; [|discriminate E]. cbn [obind] in E. apply Some_inj in E. subst h. cbn [hval_ok]. eapply held_prim_sound; eauto.
  - assert (K : (let? h := held_prim t q p in Some (HOpt (Some h))) = Some h -> hval_ok h).
    { clear E. intros E. destruct (held_prim t q p) as [x|] eqn:Eh; [|discriminate E]. cbn [obind] in E. apply Some_inj in E. subst h. cbn [hval_ok]. eapply held_prim_sound; eauto. }
    destruct p; try (exact (K E)). apply Some_inj in E. subst h. exact Logic.I.
  - discriminate E.
Qed.
Section Layout.
Variable vl : vlayout.
Hypothesis VB : forall q p, bytes_ok (vl_bytes vl q p).
Lemma sound_cursor base len o : sound_code (fun c => bytes_ok (cu_bytes c)) (cursor_at base len o).
Proof. unfold cursor_at. eapply sound_bind; [apply sound_read|]. intros bs B. now apply sound_ret. Qed.
Lemma text_cursor base len o : text_code (cursor_at base len o).
Proof. unfold cursor_at. apply text_bind; [apply text_read|]. intros. exact (text_some (Some _)). Qed.
Lemma sound_elements base len p cap n : forall i o, sound_code (fun x => Forall (fun e => prim_ok (snd e)) (fst x)) (read_elements vl base len p cap n i o).
Proof.
  induction n as [|n IH]; intros i o; cbn [read_elements]; [now apply sound_ret; constructor|].
  eapply sound_bind; [apply sound_cursor|]. intros c B. eapply (sound_bind (fun x => prim_ok (fst x))).
  { apply sound_dec. intros [v c'] E. exact (proj2 (decode_prim_any _ _ _ B E)). }
  intros [v c'] O. destruct (i <? cap); [|apply sound_panic]. eapply sound_bind; [apply sound_write, VB|]. intros _ _.
  eapply sound_bind; [apply IH|]. intros [es o'] F. apply sound_ret. constructor; [exact O|exact F].
Qed.
Lemma text_elements base len p cap n : forall i o, text_code (read_elements vl base len p cap n i o).
Proof.
  induction n as [|n IH]; intros i o; cbn [read_elements]; [exact (text_some (Some _))|].
  apply text_bind; [apply text_cursor|]. intros c. apply text_bind; [apply text_dec|]. intros [v c']. destruct (i <? cap); [|exact (text_some None)].
  apply text_bind; [apply text_write|]. intros _. apply text_bind; [apply IH|]. intros [es o']. exact (text_some (Some _)).
Qed.
Lemma sound_arg base len t o : sound_code (fun x => hval_ok (fst x)) (read_arg vl base len t o).
Proof.
  unfold read_arg. eapply sound_bind; [apply sound_cursor|]. intros c B. destruct (is_eof c); [apply sound_panic|].
  eapply (sound_bind (fun _ => True)); [now apply sound_dec|]. intros k _.
  assert (Pr : sound_code (fun x => hval_ok (fst x)) (let~ (v, c') := cdec (decode_primitive c) in let~ h := csome (prim_arg t (base + o) v) in cret (h, cu_offset c'))).
  { eapply (sound_bind (fun x => prim_ok (fst x))); [apply sound_dec; intros [v c'] E; exact (proj2 (decode_prim_any _ _ _ B E))|]. intros [v c'] O.
    eapply (sound_bind hval_ok); [apply sound_some; intros h; apply prim_arg_sound; exact O|]. intros h Hh. now apply sound_ret. }
  destruct k; try exact Pr.
  eapply (sound_bind (fun _ => True)); [now apply sound_dec|]. intros [b c1] _. eapply sound_bind; [apply sound_call|]. intros p _.
  eapply (sound_bind (fun _ => True)); [now apply sound_dec|]. intros n _. eapply sound_bind; [apply sound_elements|]. intros [es o'] F.
  eapply (sound_bind hval_ok); [apply sound_some; intros h; apply array_arg_sound; exact F|]. intros h Hh. now apply sound_ret.
Qed.
Lemma text_arg base len t o : text_code (read_arg vl base len t o).
Proof.
  unfold read_arg. apply text_bind; [apply text_cursor|]. intros c. destruct (is_eof c); [exact (text_some None)|].
  apply text_bind; [apply text_dec|]. intros k.
  assert (Pr : text_code (let~ (v, c') := cdec (decode_primitive c) in let~ h := csome (prim_arg t (base + o) v) in cret (h, cu_offset c'))).
  { apply text_bind; [apply text_dec|]. intros [v c']. apply text_bind; [apply text_some|]. intros h. exact (text_some (Some _)). }
  destruct k; try exact Pr.
  apply text_bind; [apply text_dec|]. intros [b c1]. apply text_bind; [apply text_host|]. intros p.
  apply text_bind; [apply text_dec|]. intros n. apply text_bind; [apply text_elements|]. intros [es o'].
  apply text_bind; [apply text_some|]. intros h. exact (text_some (Some _)).
Qed.
Lemma sound_all base len ts : forall o, sound_code (Forall hval_ok) (read_all vl base len ts o).
Proof.
  induction ts as [|t ts IH]; intros o; cbn [read_all]; [now apply sound_ret|]. eapply sound_bind; [apply sound_arg|]. intros [h o'] Hh.
  eapply sound_bind; [apply IH|]. intros hs F. apply sound_ret. now constructor.
Qed.
Lemma text_all base len ts : forall o, text_code (read_all vl base len ts o).
Proof.
  induction ts as [|t ts IH]; intros o; cbn [read_all]; [exact (text_some (Some _))|]. apply text_bind; [apply text_arg|]. intros [h o'].
  apply text_bind; [apply IH|]. intros hs. exact (text_some (Some _)).
Qed.
Lemma sound_endpoint_any ts ret body : (forall hs, Forall hval_ok hs -> sound_code (Forall hval_ok) (body hs)) ->
  sound_code (fun _ => True) (endpoint_any vl ts ret body).
Proof.
  intros Hb. unfold endpoint_any. eapply (sound_bind (Forall hval_ok)).
  - unfold prologue_any. destruct ts as [|t ts]; [now apply sound_ret|]. eapply sound_bind; [apply sound_call|]. intros b _.
    eapply sound_bind; [apply sound_call|]. intros l _. apply sound_all.
  - intros hs Hs. eapply sound_bind; [now apply Hb|]. intros vs Hv. now apply sound_epilogue.
Qed.
Lemma text_endpoint_any ts ret body : (forall hs, text_code (body hs)) -> text_code (endpoint_any vl ts ret body).
Proof.
  intros Hb. unfold endpoint_any. apply text_bind.
  - unfold prologue_any. destruct ts as [|t ts]; [exact (text_some (Some _))|]. apply text_bind; [apply text_host|]. intros b.
    apply text_bind; [apply text_host|]. intros l. apply text_all.
  - intros hs. apply text_bind; [apply Hb|]. intros vs. destruct ret as [rts|]; cbn [epilogue]; [|exact (text_some (Some _))].
    apply text_bind; [apply text_host|]. intros p. apply text_bind; [apply text_hvals|]. intros len.
    destruct (0 <? len); [|exact (text_some (Some _))]. apply text_bind; [apply text_host|]. intros. exact (text_some (Some _)).
Qed.
End Layout.
