(** Lemmas for the receipt codec. *)
From Coq Require Import List NArith ZArith Lia Bool.
From Coq Require Import ZifyBool ZifyNat ZifyN.
From Verif Require Import Base CodecModel CodecSpec CodecProofs ReceiptModel ReceiptSpec.
Import ListNotations.
Open Scope N_scope.

Lemma bytes_eqb_spec a b : bytes_eqb a b = true <-> a = b.
Proof.
  revert b. induction a as [|x a IH]; destruct b as [|y b]; simpl; split; try congruence; auto.
  - rewrite andb_true_iff, IH. intros [H ->]. apply N.eqb_eq in H. congruence.
  - intros [= -> ->]. rewrite N.eqb_refl. simpl. now apply IH.
Qed.

Lemma log_rt l : blob_wf 65535 l -> round_trips enc_log dec_log l.
Proof.
  intros [H _]. unfold round_trips, enc_log, dec_log, u16_max.
  destruct (N.leb_spec (nlen l) 65535); [|lia].
  eexists; split; [reflexivity|]. intros rest. rewrite <- app_assoc.
  rewrite dec_u16_app by (red; lia). cbn [bind].
  apply read_bytes_app_n. unfold nlen. lia.
Qed.

Lemma logs_rt ls : logs_wf ls -> round_trips enc_logs dec_logs ls.
Proof.
  intros [H Hl]. unfold round_trips, enc_logs, dec_logs, u8_max.
  destruct (seq_round_trip enc_log dec_log ls) as (bs & E & D).
  { eapply Forall_impl; [|exact Hl]. intros. now apply log_rt. }
  destruct (N.leb_spec (nlen ls) 255); [|lia]. rewrite E. cbn [obind].
  eexists; split; [reflexivity|]. intros rest. cbn [app read_byte bind].
  unfold nlen. rewrite Nnat.Nat2N.id. apply D.
Qed.

Lemma existsb_bytes_in x s : existsb (bytes_eqb x) s = true <-> In x s.
Proof.
  rewrite existsb_exists. split.
  - intros (y & Hy & E). apply bytes_eqb_spec in E. congruence.
  - intros H. exists x. split; auto. now apply bytes_eqb_spec.
Qed.

Lemma set_insert_new x s : ~ In x s -> set_insert x s = s ++ [x].
Proof.
  intros H. unfold set_insert. destruct (existsb (bytes_eqb x) s) eqn:E; auto.
  apply existsb_bytes_in in E. contradiction.
Qed.

Lemma dec_touched_loop_app s acc rest :
  Forall (array_wf 20) s -> NoDup (acc ++ s) ->
  dec_touched_loop (length s) acc (concat s ++ rest) = Ok (acc ++ s, rest).
Proof.
  revert acc. induction s as [|a s IH]; intros acc Hw Hn.
  - cbn. now rewrite app_nil_r.
  - inversion Hw as [|? ? [Ha _] Hs]; subst. cbn [length concat dec_touched_loop].
    rewrite <- app_assoc, read_bytes_app_n by auto. cbn [bind].
    rewrite set_insert_new.
    + rewrite IH; auto. { now rewrite <- app_assoc. }
      rewrite <- app_assoc. exact Hn.
    + apply NoDup_remove_2 in Hn. intros Hin. apply Hn, in_or_app. auto.
Qed.

Lemma touched_rt s : touched_wf s -> round_trips enc_touched dec_touched s.
Proof.
  intros (H & Hn & Hw). unfold round_trips, enc_touched, dec_touched, u16_max.
  destruct (N.leb_spec (nlen s) 65535); [|lia].
  eexists; split; [reflexivity|]. intros rest. rewrite <- app_assoc.
  rewrite dec_u16_app by (red; lia). cbn [bind]. unfold nlen. rewrite Nnat.Nat2N.id.
  now rewrite dec_touched_loop_app.
Qed.

(** ** Errors *)
Lemma firstn255 (m : bytes) : nlen m <= 255 -> firstn 255 m = m.
Proof. intros H. apply firstn_all2. unfold nlen in H. lia. Qed.

Lemma msg_enc m : msg_wf m ->
  enc_msg m = Some (nlen (firstn 255 m) :: firstn 255 m) /\ string_wf 255 (firstn 255 m).
Proof.
  intros (Hb & Hu & Hc).
  assert (Hl : nlen (firstn 255 m) <= 255) by (unfold nlen; rewrite firstn_length; lia).
  split.
  - unfold enc_msg. destruct (N.ltb_spec 255 (nlen m)).
    + rewrite Hc. now apply enc_string_some.
    + rewrite firstn255 by auto. now apply enc_string_some.
  - repeat split; auto. unfold bytes_ok in *.
    rewrite <- (firstn_skipn 255 m) in Hb. now apply Forall_app in Hb as [? _].
Qed.

Lemma unwrapped_ok {A} (d : decoder A) bs x : d bs = Ok x -> unwrapped d bs = Ok x.
Proof. unfold unwrapped. now intros ->. Qed.

Lemma err_body_rt e : error_wf e ->
  exists bs, enc_err_body e = Some bs /\
    forall rest, dec_err_body (err_code e) (bs ++ rest) = Ok (error_on_wire e, rest).
Proof.
  intros H. destruct e; cbn [enc_err_body error_wf error_on_wire err_code] in *;
    unfold enc_array; cbn [obind];
    repeat match goal with H : _ /\ _ |- _ => destruct H end;
    repeat match goal with H : msg_wf _ |- _ => apply msg_enc in H as [-> ?] end;
    repeat match goal with H : string_wf 255 ?f |- _ =>
      lazymatch goal with |- context[enc_string f] =>
        rewrite (enc_string_some f) by apply H end end; cbn [obind];
    (eexists; split; [reflexivity|]); intros rest; rewrite <- ?app_assoc;
    cbn [dec_err_body]; unfold dec_addr3, dec_addr4;
    repeat first
     [ reflexivity
     | erewrite unwrapped_ok by (apply dec_array_app; eassumption); cbn [bind]
     | erewrite unwrapped_ok by (apply dec_string_app; eassumption); cbn [bind] ].
Qed.

Lemma failure_rt e logs : error_wf e -> logs_wf logs ->
  exists bs, enc_failure e logs = Some bs /\
    forall rest, dec_failure (bs ++ rest) = Ok ((error_on_wire e, logs), rest).
Proof.
  intros He Hl. unfold enc_failure.
  destruct (logs_rt logs Hl) as (lb & -> & Dl). cbn [obind].
  destruct (err_body_rt e He) as (eb & -> & De). cbn [obind].
  eexists; split; [reflexivity|]. intros rest. unfold dec_failure.
  cbn [app]. rewrite <- app_assoc.
  erewrite unwrapped_ok by reflexivity. cbn [bind].
  erewrite unwrapped_ok by apply Dl. cbn [bind]. now rewrite De.
Qed.

(** ** Receipts *)
Lemma dec_return_app d rest : blob_wf 65535 d ->
  dec_return (be_bytes 2 (nlen d) ++ d ++ rest) = Ok (d, rest).
Proof. intros [H _]. apply dec_data_app. change (256 ^ N.of_nat 2) with 65536. lia. Qed.
Lemma enc_return_some d : blob_wf 65535 d -> enc_return d = Some (be_bytes 2 (nlen d) ++ d).
Proof. intros [H _]. apply enc_data_some. change (256 ^ N.of_nat 2) with 65536. lia. Qed.

Lemma dec_header x : dec_u16 (be_bytes 2 0 ++ x) = Ok (0, x).
Proof. reflexivity. Qed.
Lemma dec_bool_1 x : dec_bool ([1] ++ x) = Ok (true, x).
Proof. reflexivity. Qed.
Lemma dec_bool_0 x : dec_bool ([0] ++ x) = Ok (false, x).
Proof. reflexivity. Qed.

Lemma call_receipt_rt c : call_receipt_wf c ->
  exists bs, enc_call_receipt c = Some bs /\
    forall rest, dec_call_receipt (bs ++ rest) = Ok (call_view c, rest).
Proof.
  intros (Hv & Hlog & H). unfold enc_call_receipt, enc_u16, enc_uint, enc_bool, call_view.
  cbn [obind]. destruct c as [v s err st rd g t l]. cbn [cr_version cr_success cr_error cr_new_state cr_returndata cr_gas_used cr_touched cr_logs sr_version sr_success sr_error sr_account sr_init_state sr_returndata sr_gas_used sr_touched sr_logs dr_version dr_success dr_error dr_addr dr_gas_used dr_logs] in *. subst v. destruct s.
  - destruct H as (He & (s' & -> & Hs) & (r' & -> & Hr) & Hg & Ht). subst err.
    cbn [obind]. unfold enc_array. cbn [obind].
    rewrite enc_return_some by auto. cbn [obind]. unfold enc_gas, enc_u64, enc_uint. cbn [obind].
    destruct (touched_rt t Ht) as (tb & -> & Dt). cbn [obind].
    destruct (logs_rt l Hlog) as (lb & -> & Dl). cbn [obind].
    eexists; split; [reflexivity|]. intros rest.
    rewrite <- app_comm_cons, <- !app_assoc.
    unfold dec_call_receipt. cbn [read_byte bind]. cbn [N.eqb TY_CALL Pos.eqb negb].
    rewrite dec_header. cbn [bind N.eqb negb].
    rewrite dec_bool_1. cbn [bind]. 
    rewrite dec_array_app by exact Hs. cbn [bind]. rewrite dec_return_app by auto. cbn [bind].
    rewrite dec_gas_app by auto. cbn [bind]. rewrite Dt. cbn [bind]. rewrite Dl. reflexivity.
  - destruct H as (e & -> & He). cbn [obind].
    destruct (failure_rt e l He Hlog) as (fb & -> & Df). cbn [obind].
    eexists; split; [reflexivity|]. intros rest.
    rewrite <- app_comm_cons, <- !app_assoc.
    unfold dec_call_receipt. cbn [read_byte bind]. cbn [N.eqb TY_CALL Pos.eqb negb].
    rewrite dec_header. cbn [bind N.eqb negb].
    rewrite dec_bool_0. cbn [bind]. rewrite Df. reflexivity.
Qed.

Lemma spawn_receipt_rt c : spawn_receipt_wf c ->
  exists bs, enc_spawn_receipt c = Some bs /\
    forall rest, dec_spawn_receipt (bs ++ rest) = Ok (spawn_view c, rest).
Proof.
  intros (Hv & Hlog & H). unfold enc_spawn_receipt, enc_u16, enc_uint, enc_bool, spawn_view.
  cbn [obind]. destruct c as [v s err ac st rd g t l]. cbn [cr_version cr_success cr_error cr_new_state cr_returndata cr_gas_used cr_touched cr_logs sr_version sr_success sr_error sr_account sr_init_state sr_returndata sr_gas_used sr_touched sr_logs dr_version dr_success dr_error dr_addr dr_gas_used dr_logs] in *. subst v. destruct s.
  - destruct H as (He & (a' & -> & Ha) & (s' & -> & Hs) & (r' & -> & Hr) & Hg & Ht). subst err.
    cbn [obind]. unfold enc_array. cbn [obind].
    rewrite enc_return_some by auto. cbn [obind]. unfold enc_gas, enc_u64, enc_uint. cbn [obind].
    destruct (touched_rt t Ht) as (tb & -> & Dt). cbn [obind].
    destruct (logs_rt l Hlog) as (lb & -> & Dl). cbn [obind].
    eexists; split; [reflexivity|]. intros rest.
    rewrite <- app_comm_cons, <- !app_assoc.
    unfold dec_spawn_receipt. cbn [read_byte bind]. cbn [N.eqb TY_SPAWN Pos.eqb negb].
    rewrite dec_header. cbn [bind N.eqb negb].
    rewrite dec_bool_1. cbn [bind]. rewrite dec_array_app by exact Ha. cbn [bind].
    rewrite dec_array_app by exact Hs. cbn [bind]. rewrite dec_return_app by auto. cbn [bind].
    rewrite dec_gas_app by auto. cbn [bind]. rewrite Dt. cbn [bind]. rewrite Dl. reflexivity.
  - destruct H as (e & -> & He). cbn [obind].
    destruct (failure_rt e l He Hlog) as (fb & -> & Df). cbn [obind].
    eexists; split; [reflexivity|]. intros rest.
    rewrite <- app_comm_cons, <- !app_assoc.
    unfold dec_spawn_receipt. cbn [read_byte bind]. cbn [N.eqb TY_SPAWN Pos.eqb negb].
    rewrite dec_header. cbn [bind N.eqb negb].
    rewrite dec_bool_0. cbn [bind]. erewrite unwrapped_ok by apply Df. reflexivity.
Qed.

Lemma deploy_receipt_rt c : deploy_receipt_wf c ->
  exists bs, enc_deploy_receipt c = Some bs /\
    forall rest, dec_deploy_receipt (bs ++ rest) = Ok (deploy_view c, rest).
Proof.
  intros (Hv & Hlog & H). unfold enc_deploy_receipt, enc_u16, enc_uint, enc_bool, deploy_view.
  cbn [obind]. destruct c as [v s err ad g l]. cbn [cr_version cr_success cr_error cr_new_state cr_returndata cr_gas_used cr_touched cr_logs sr_version sr_success sr_error sr_account sr_init_state sr_returndata sr_gas_used sr_touched sr_logs dr_version dr_success dr_error dr_addr dr_gas_used dr_logs] in *. subst v. destruct s.
  - destruct H as (He & (a' & -> & Ha) & Hg). subst err.
    cbn [obind]. unfold enc_array. cbn [obind]. unfold enc_gas, enc_u64, enc_uint. cbn [obind].
    destruct (logs_rt l Hlog) as (lb & -> & Dl). cbn [obind].
    eexists; split; [reflexivity|]. intros rest.
    rewrite <- app_comm_cons, <- !app_assoc.
    unfold dec_deploy_receipt. cbn [read_byte bind]. cbn [N.eqb TY_DEPLOY Pos.eqb negb].
    rewrite dec_header. cbn [bind N.eqb negb].
    rewrite dec_bool_1. cbn [bind]. rewrite dec_array_app by exact Ha. cbn [bind].
    rewrite dec_gas_app by auto. cbn [bind]. rewrite Dl. reflexivity.
  - destruct H as (e & -> & He). cbn [obind].
    destruct (failure_rt e [] He) as (fb & -> & Df). { split; [vm_compute; discriminate|constructor]. }
    cbn [obind].
    eexists; split; [reflexivity|]. intros rest.
    rewrite <- app_comm_cons, <- !app_assoc.
    unfold dec_deploy_receipt. cbn [read_byte bind]. cbn [N.eqb TY_DEPLOY Pos.eqb negb].
    rewrite dec_header. cbn [bind N.eqb negb].
    rewrite dec_bool_0. cbn [bind]. rewrite Df. reflexivity.
Qed.

Lemma enc_head_call c bs : enc_call_receipt c = Some bs -> exists r, bs = TY_CALL :: r.
Proof.
  unfold enc_call_receipt. intros H.
  repeat match type of H with
  | obind ?m _ = Some _ => destruct m; cbn [obind] in H; [|discriminate]
  | (if ?b then _ else _) = _ => destruct b end;
  injection H as <-; eauto.
Qed.
Lemma enc_head_spawn c bs : enc_spawn_receipt c = Some bs -> exists r, bs = TY_SPAWN :: r.
Proof.
  unfold enc_spawn_receipt. intros H.
  repeat match type of H with
  | obind ?m _ = Some _ => destruct m; cbn [obind] in H; [|discriminate]
  | (if ?b then _ else _) = _ => destruct b end;
  injection H as <-; eauto.
Qed.
Lemma enc_head_deploy c bs : enc_deploy_receipt c = Some bs -> exists r, bs = TY_DEPLOY :: r.
Proof.
  unfold enc_deploy_receipt. intros H.
  repeat match type of H with
  | obind ?m _ = Some _ => destruct m; cbn [obind] in H; [|discriminate]
  | (if ?b then _ else _) = _ => destruct b end;
  injection H as <-; eauto.
Qed.

Definition receipt_view (r : receipt) : receipt :=
  match r with
  | RDeploy d => RDeploy (deploy_view d)
  | RSpawn s => RSpawn (spawn_view s)
  | RCall c => RCall (call_view c)
  end.

Lemma receipt_rt r : receipt_wf r ->
  exists bs, enc_receipt r = Some bs /\
    forall rest, dec_receipt (bs ++ rest) = Ok (receipt_view r, rest).
Proof.
  destruct r as [d|s|c]; cbn [receipt_wf enc_receipt receipt_view]; intros H.
  - destruct (deploy_receipt_rt d H) as (bs & E & D). exists bs. split; auto. intros rest.
    destruct (enc_head_deploy d bs E) as (r & ->). specialize (D rest).
    unfold dec_receipt. cbn [app] in *. cbn [N.eqb TY_DEPLOY]. rewrite D. reflexivity.
  - destruct (spawn_receipt_rt s H) as (bs & E & D). exists bs. split; auto. intros rest.
    destruct (enc_head_spawn s bs E) as (r & ->). specialize (D rest).
    unfold dec_receipt. cbn [app] in *. cbn [N.eqb TY_SPAWN TY_DEPLOY Pos.eqb]. rewrite D. reflexivity.
  - destruct (call_receipt_rt c H) as (bs & E & D). exists bs. split; auto. intros rest.
    destruct (enc_head_call c bs E) as (r & ->). specialize (D rest).
    unfold dec_receipt. cbn [app] in *. cbn [N.eqb TY_SPAWN TY_DEPLOY TY_CALL Pos.eqb]. rewrite D. reflexivity.
Qed.

Lemma receipt_kind_preserved r : receipt_wf r ->
  exists bs r', enc_receipt r = Some bs /\
    (forall rest, dec_receipt (bs ++ rest) = Ok (r', rest))
    /\ kind_of r' = kind_of r /\ succeeded r' = succeeded r.
Proof.
  intros H. destruct (receipt_rt r H) as (bs & E & D). exists bs, (receipt_view r).
  repeat split; auto; destruct r as [d|s|c]; cbn; auto;
    unfold deploy_view, spawn_view, call_view.
  - destruct (dr_success d) eqn:?; cbn; auto.
  - destruct (sr_success s) eqn:?; cbn; auto.
  - destruct (cr_success c) eqn:?; cbn; auto.
Qed.

(** Two receipts with the same bytes are the same receipt, up to what the format documents. *)
Lemma receipt_injective r1 r2 bs :
  receipt_wf r1 -> receipt_wf r2 -> enc_receipt r1 = Some bs -> enc_receipt r2 = Some bs ->
  receipt_view r1 = receipt_view r2.
Proof.
  intros H1 H2 E1 E2.
  destruct (receipt_rt r1 H1) as (b1 & E1' & D1). destruct (receipt_rt r2 H2) as (b2 & E2' & D2).
  assert (b1 = bs) by congruence. assert (b2 = bs) by congruence. subst.
  specialize (D1 []). specialize (D2 []). congruence.
Qed.

(** ** Robustness of the decoders on arbitrary bytes *)
Lemma np_log : never_panics dec_log.
Proof. apply (np_bind dec_u16 (fun n => read_bytes (N.to_nat n))); [apply np_uint|]. intros; apply np_read_bytes. Qed.

Lemma np_seq {A} (d : decoder A) n : never_panics d -> never_panics (dec_seq d n).
Proof. intros H bs. destruct (dec_seq_cases d n bs H) as [?|(l & p & r & ? & ?)]; eauto 6. Qed.

Lemma np_read_byte : never_panics read_byte.
Proof. intros [|b r]; cbn; eauto. right. exists b, [b], r. auto. Qed.

Lemma np_logs : never_panics dec_logs.
Proof. apply (np_bind read_byte (fun n => dec_seq dec_log (N.to_nat n))); [apply np_read_byte|]. intros; apply np_seq, np_log. Qed.

Lemma np_touched_loop n s : never_panics (dec_touched_loop n s).
Proof.
  revert s. induction n; intros s; cbn [dec_touched_loop]; [apply np_ret|].
  apply (np_bind (read_bytes 20) (fun a => dec_touched_loop n (set_insert a s))); [apply np_read_bytes|]. auto.
Qed.

Lemma np_touched : never_panics dec_touched.
Proof. apply (np_bind dec_u16 (fun n => dec_touched_loop (N.to_nat n) [])); [apply np_uint|]. intros; apply np_touched_loop. Qed.

Definition call_body : decoder call_receipt := fun r =>
  let* (st, r) := dec_array STATE_LEN r in
  let* (rd, r) := dec_return r in
  let* (g, r) := dec_gas r in
  let* (t, r) := dec_touched r in
  let* (l, r) := dec_logs r in
  Ok (mkCallReceipt 0 true None (Some st) (Some rd) g t l, r).
Lemma np_call_body : never_panics call_body.
Proof.
  unfold call_body.
  apply (np_bind (dec_array STATE_LEN) (fun st r => let* (rd, r) := dec_return r in _)); [apply np_read_bytes|intros st].
  apply (np_bind dec_return (fun rd r => let* (g, r) := dec_gas r in _)); [apply np_data|intros rd].
  apply (np_bind dec_gas (fun g r => let* (t, r) := dec_touched r in _)); [apply np_gas|intros g].
  apply (np_bind dec_touched (fun t r => let* (l, r) := dec_logs r in _)); [apply np_touched|intros t].
  apply (np_bind dec_logs (fun l r => Ok (_, r))); [apply np_logs|intros l]. apply np_ret.
Qed.

Lemma np_suffix_ok {A} (d : decoder A) bs : never_panics d -> d bs <> Panic.
Proof. intros H. destruct (H bs) as [(e & ->)|(x & p & r & -> & _)]; discriminate. Qed.

Lemma call_success_no_panic bs : dec_call_receipt (2 :: 0 :: 0 :: 1 :: bs) <> Panic.
Proof. change (call_body bs <> Panic). apply np_suffix_ok, np_call_body. Qed.

Definition spawn_body : decoder spawn_receipt := fun r =>
  let* (ac, r) := dec_array ADDRESS_LEN r in
  let* (st, r) := dec_array STATE_LEN r in
  let* (rd, r) := dec_return r in
  let* (g, r) := dec_gas r in
  let* (t, r) := dec_touched r in
  let* (l, r) := dec_logs r in
  Ok (mkSpawnReceipt 0 true None (Some ac) (Some st) (Some rd) g t l, r).
Lemma np_spawn_body : never_panics spawn_body.
Proof.
  unfold spawn_body.
  apply (np_bind (dec_array ADDRESS_LEN) (fun ac r => let* (st, r) := dec_array STATE_LEN r in _)); [apply np_read_bytes|intros ac].
  apply (np_bind (dec_array STATE_LEN) (fun st r => let* (rd, r) := dec_return r in _)); [apply np_read_bytes|intros st].
  apply (np_bind dec_return (fun rd r => let* (g, r) := dec_gas r in _)); [apply np_data|intros rd].
  apply (np_bind dec_gas (fun g r => let* (t, r) := dec_touched r in _)); [apply np_gas|intros g].
  apply (np_bind dec_touched (fun t r => let* (l, r) := dec_logs r in _)); [apply np_touched|intros t].
  apply (np_bind dec_logs (fun l r => Ok (_, r))); [apply np_logs|intros l]. apply np_ret.
Qed.
Lemma spawn_success_no_panic bs : dec_spawn_receipt (1 :: 0 :: 0 :: 1 :: bs) <> Panic.
Proof. change (spawn_body bs <> Panic). apply np_suffix_ok, np_spawn_body. Qed.

Definition deploy_body : decoder deploy_receipt := fun r =>
  let* (ad, r) := dec_array ADDRESS_LEN r in
  let* (g, r) := dec_gas r in
  let* (l, r) := dec_logs r in
  Ok (mkDeployReceipt 0 true None (Some ad) g l, r).
Lemma np_deploy_body : never_panics deploy_body.
Proof.
  unfold deploy_body.
  apply (np_bind (dec_array ADDRESS_LEN) (fun ac r => let* (st, r) := dec_gas r in _)); [apply np_read_bytes|intros ac].
  apply (np_bind dec_gas (fun t r => let* (l, r) := dec_logs r in _)); [apply np_gas|intros t].
  apply (np_bind dec_logs (fun l r => Ok (_, r))); [apply np_logs|intros l]. apply np_ret.
Qed.
Lemma deploy_success_no_panic bs : dec_deploy_receipt (0 :: 0 :: 0 :: 1 :: bs) <> Panic.
Proof. change (deploy_body bs <> Panic). apply np_suffix_ok, np_deploy_body. Qed.

Lemma receipt_success_no_panic k bs : k <= 255 -> dec_receipt (k :: 0 :: 0 :: 1 :: bs) <> Panic.
Proof.
  intros _. unfold dec_receipt.
  destruct (N.eqb_spec k TY_DEPLOY) as [->|_].
  { pose proof (deploy_success_no_panic bs). unfold TY_DEPLOY in *.
    destruct (dec_deploy_receipt (0 :: 0 :: 0 :: 1 :: bs)) as [[? ?]| |]; cbn [bind]; congruence. }
  destruct (N.eqb_spec k TY_SPAWN) as [->|_].
  { pose proof (spawn_success_no_panic bs). unfold TY_SPAWN in *.
    destruct (dec_spawn_receipt (1 :: 0 :: 0 :: 1 :: bs)) as [[? ?]| |]; cbn [bind]; congruence. }
  destruct (N.eqb_spec k TY_CALL) as [->|_].
  { pose proof (call_success_no_panic bs). unfold TY_CALL in *.
    destruct (dec_call_receipt (2 :: 0 :: 0 :: 1 :: bs)) as [[? ?]| |]; cbn [bind]; congruence. }
  discriminate.
Qed.

(** ** When encoding panics *)
Lemma enc_err_body_none e :
  enc_err_body e = None <->
  match e with
  | OOG | TemplateNotFound _ | AccountNotFound _ => False
  | CompilationFailed _ _ s | InstantiationFailed _ _ s
  | FuncNotFound _ _ s | FuncInvalidSignature _ _ s | FuncNotCtor _ s => 255 < nlen s
  | FuncFailed _ _ f m | FuncNotAllowed _ _ f m =>
      255 < nlen f \/ (255 < nlen m /\ utf8_valid (firstn 255 m) = false)
  end.
Proof.
  assert (S : forall s, enc_string s = None <-> 255 < nlen s).
  { intros s. unfold enc_string. destruct (N.ltb_spec (nlen s) 256); split; try congruence; lia. }
  assert (M : forall m, enc_msg m = None <-> 255 < nlen m /\ utf8_valid (firstn 255 m) = false).
  { intros m. unfold enc_msg. destruct (N.ltb_spec 255 (nlen m)).
    - destruct (utf8_valid (firstn 255 m)).
      + rewrite S. unfold nlen. rewrite firstn_length. split; [lia|intros [_ ?]; discriminate].
      + split; auto.
    - rewrite S. split; [lia|intros [? _]; lia]. }
  destruct e; cbn [enc_err_body]; unfold enc_array; cbn [obind]; try (split; [discriminate|tauto]);
    try match goal with |- context[enc_string ?s] => destruct (enc_string s) eqn:E; cbn [obind] end;
    try match goal with |- context[enc_msg ?s] => destruct (enc_msg s) eqn:E'; cbn [obind] end;
    try apply S in E; try apply M in E'; try (split; auto; fail);
    try (split; [discriminate|]; intros H;
         repeat match goal with H : _ \/ _ |- _ => destruct H end;
         repeat match goal with
         | H : 255 < nlen ?s |- _ => apply S in H
         | H : 255 < nlen ?s /\ _ |- _ => apply M in H end; congruence).
Qed.
