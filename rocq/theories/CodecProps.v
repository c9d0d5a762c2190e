(** Property theorems for the binary message codec. *)
From Coq Require Import List NArith ZArith Lia Bool.
From Verif Require Import Base CodecModel CodecSpec CodecProofs.
Import ListNotations.
Open Scope N_scope.

(** ** C01 Transaction codec round trip *)
Theorem C01_transaction_round_trip :
  forall t, transaction_wf t ->
    exists bs, enc_transaction t = Some bs /\
      forall rest, dec_transaction (bs ++ rest) = Ok (t, rest).
Proof. exact transaction_rt. Qed.
Print Assumptions C01_transaction_round_trip.

Definition example_tx : transaction :=
  mkTransaction 7 (repeat 170 20) [100; 111; 95; 195; 169] [1; 2; 3] (repeat 16 255).
Example C01_satisfiable : transaction_wf example_tx.
Proof.
  constructor; cbn; repeat split; try (vm_compute; congruence);
    repeat (constructor; [vm_compute; reflexivity|]); constructor.
Qed.

(** ** C02 Envelope codec round trip *)
Theorem C02_envelope_round_trip :
  forall e, envelope_wf e ->
    exists bs, enc_envelope e = Some bs /\ length bs = 60%nat /\
      forall rest, dec_envelope (bs ++ rest) = Ok (e, rest).
Proof.
  intros e W. destruct (envelope_rt e W) as (bs & E & D). exists bs.
  split; [auto|]. split; [|auto]. apply (envelope_format e bs W E).
Qed.
Print Assumptions C02_envelope_round_trip.

Definition example_env : envelope := mkEnvelope (repeat 1 20) 5 (2 ^ 100) (Some 9) 77.
Example C02_satisfiable : envelope_wf example_env.
Proof.
  constructor; cbn; repeat split; try (vm_compute; congruence);
    repeat (constructor; [vm_compute; reflexivity|]); constructor.
Qed.

(** The exception is real: an explicit gas limit of zero is decoded as "no limit". *)
Theorem C02_envelope_zero_gas_refuted :
  exists e bs, env_gas_limit e = Some 0 /\ enc_envelope e = Some bs /\
    exists e', dec_envelope bs = Ok (e', []) /\ env_gas_limit e' = None.
Proof.
  exists (mkEnvelope (repeat 1 20) 5 6 (Some 0) 7). eexists. split; [reflexivity|].
  split; [reflexivity|]. eexists. split; vm_compute; reflexivity.
Qed.
Print Assumptions C02_envelope_zero_gas_refuted.

(** ** C03 Context codec round trip *)
Theorem C03_context_round_trip :
  forall c, context_wf c ->
    exists bs, enc_context c = Some bs /\ length bs = 72%nat /\
      forall rest, dec_context (bs ++ rest) = Ok (c, rest).
Proof.
  intros c W. destruct (context_rt c W) as (bs & E & D). exists bs.
  split; [auto|]. split; [|auto]. apply (context_format c bs W E).
Qed.
Print Assumptions C03_context_round_trip.

Example C03_satisfiable : context_wf (mkContext (repeat 3 32) 1000000 (repeat 255 32)).
Proof.
  constructor; cbn; repeat split; try (vm_compute; congruence);
    repeat (constructor; [vm_compute; reflexivity|]); constructor.
Qed.

(** ** C04 Spawn message codec round trip *)
Theorem C04_spawn_round_trip :
  forall s, spawn_wf s ->
    exists bs, enc_spawn s = Some bs /\
      forall rest, dec_spawn (bs ++ rest) = Ok (s, rest).
Proof. exact spawn_rt. Qed.
Print Assumptions C04_spawn_round_trip.

Example C04_satisfiable : spawn_wf (mkSpawn 0 (repeat 9 20) [64; 97] [105; 110; 105; 116] [1]).
Proof.
  constructor; cbn; repeat split; try (vm_compute; congruence);
    repeat (constructor; [vm_compute; reflexivity|]); constructor.
Qed.

(** ** C05 No malleability *)
Theorem C05_transaction_canonical :
  forall bs t rest, bytes_ok bs -> dec_transaction bs = Ok (t, rest) ->
    transaction_wf t /\ exists p, enc_transaction t = Some p /\ bs = p ++ rest.
Proof. exact transaction_canon. Qed.
Print Assumptions C05_transaction_canonical.

Theorem C05_envelope_canonical :
  forall bs e rest, bytes_ok bs -> dec_envelope bs = Ok (e, rest) ->
    envelope_wf e /\ exists p, enc_envelope e = Some p /\ bs = p ++ rest.
Proof. exact envelope_canon. Qed.
Print Assumptions C05_envelope_canonical.

Theorem C05_context_canonical :
  forall bs c rest, bytes_ok bs -> dec_context bs = Ok (c, rest) ->
    context_wf c /\ exists p, enc_context c = Some p /\ bs = p ++ rest.
Proof. exact context_canon. Qed.
Print Assumptions C05_context_canonical.

Theorem C05_spawn_canonical :
  forall bs s rest, bytes_ok bs -> dec_spawn bs = Ok (s, rest) ->
    spawn_wf s /\ exists p, enc_spawn s = Some p /\ bs = p ++ rest.
Proof. exact spawn_canon. Qed.
Print Assumptions C05_spawn_canonical.

Example C05_satisfiable : exists bs, bytes_ok bs /\
  dec_transaction bs = Ok (mkTransaction 258 (repeat 7 20) [65] [] [1; 2], [99]).
Proof.
  exists ([1; 2] ++ repeat 7 20 ++ [1; 65; 0; 2; 1; 2; 99]). split.
  - repeat (constructor; [vm_compute; reflexivity|]); constructor.
  - vm_compute. reflexivity.
Qed.

(** ** C06 Decoders never crash *)
Theorem C06_decoders_total :
  never_panics dec_transaction /\ never_panics dec_envelope
  /\ never_panics dec_context /\ never_panics dec_spawn.
Proof. exact (conj np_transaction (conj np_envelope (conj np_context np_spawn))). Qed.
Print Assumptions C06_decoders_total.

(** ** C07 Truncated messages are rejected *)
Theorem C07_transaction_truncation :
  forall t, transaction_wf t -> forall bs pre suf,
    enc_transaction t = Some bs -> bs = pre ++ suf -> suf <> [] ->
    exists err, dec_transaction pre = Err err.
Proof.
  exact (fun t H => truncation _ _ _ transaction_rt transaction_canon np_transaction t H
                      (fun bs => enc_transaction_ok t bs H)).
Qed.
Print Assumptions C07_transaction_truncation.

Theorem C07_envelope_truncation :
  forall e, envelope_wf e -> forall bs pre suf,
    enc_envelope e = Some bs -> bs = pre ++ suf -> suf <> [] ->
    exists err, dec_envelope pre = Err err.
Proof.
  exact (fun t H => truncation _ _ _ envelope_rt envelope_canon np_envelope t H
                      (fun bs => enc_envelope_ok t bs H)).
Qed.
Print Assumptions C07_envelope_truncation.

Theorem C07_context_truncation :
  forall c, context_wf c -> forall bs pre suf,
    enc_context c = Some bs -> bs = pre ++ suf -> suf <> [] ->
    exists err, dec_context pre = Err err.
Proof.
  exact (fun t H => truncation _ _ _ context_rt context_canon np_context t H
                      (fun bs => enc_context_ok t bs H)).
Qed.
Print Assumptions C07_context_truncation.

Theorem C07_spawn_truncation :
  forall s, spawn_wf s -> forall bs pre suf,
    enc_spawn s = Some bs -> bs = pre ++ suf -> suf <> [] ->
    exists err, dec_spawn pre = Err err.
Proof.
  exact (fun t H => truncation _ _ _ spawn_rt spawn_canon np_spawn t H
                      (fun bs => enc_spawn_ok t bs H)).
Qed.
Print Assumptions C07_spawn_truncation.

Example C07_satisfiable : exists bs pre suf,
  enc_transaction example_tx = Some bs /\ bs = pre ++ suf /\ suf <> [] /\ pre <> [].
Proof.
  eexists. exists (firstn 9 (match enc_transaction example_tx with Some b => b | None => [] end)).
  exists (skipn 9 (match enc_transaction example_tx with Some b => b | None => [] end)).
  split; [vm_compute; reflexivity|]. split; [vm_compute; reflexivity|]. split; vm_compute; congruence.
Qed.

(** ** C53 Documented wire layout *)
Theorem C53_envelope_layout :
  forall e bs, envelope_wf e -> enc_envelope e = Some bs ->
  length bs = 60%nat
  /\ bytes_at bs 0 (env_principal e)
  /\ field_at bs 20 8 (env_amount e)
  /\ field_at bs 28 16 (env_nonce e)
  /\ field_at bs 44 8 (match env_gas_limit e with Some g => g | None => 0 end)
  /\ field_at bs 52 8 (env_gas_fee e).
Proof. exact envelope_format. Qed.
Print Assumptions C53_envelope_layout.

Theorem C53_context_layout :
  forall c bs, context_wf c -> enc_context c = Some bs ->
  length bs = 72%nat /\ bytes_at bs 0 (ctx_tx_id c) /\ field_at bs 32 8 (ctx_layer c)
  /\ bytes_at bs 40 (ctx_state c).
Proof. exact context_format. Qed.
Print Assumptions C53_context_layout.

Theorem C53_transaction_layout :
  forall t bs, transaction_wf t -> enc_transaction t = Some bs ->
  let f := length (tx_func_name t) in
  let v := length (tx_verifydata t) in
  let c := length (tx_calldata t) in
  length bs = (25 + f + v + c)%nat
  /\ field_at bs 0 2 (tx_version t) /\ bytes_at bs 2 (tx_target t)
  /\ field_at bs 22 1 (N.of_nat f) /\ bytes_at bs 23 (tx_func_name t)
  /\ field_at bs (23 + f) 1 (N.of_nat v) /\ bytes_at bs (24 + f) (tx_verifydata t)
  /\ field_at bs (24 + f + v) 1 (N.of_nat c) /\ bytes_at bs (25 + f + v) (tx_calldata t).
Proof. exact transaction_format. Qed.
Print Assumptions C53_transaction_layout.
