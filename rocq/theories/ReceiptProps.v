(** Property theorems for the receipt codec. *)
From Coq Require Import List NArith Bool.
From Verif Require Import Base CodecModel CodecSpec ReceiptModel ReceiptSpec ReceiptProofs.
Import ListNotations.
Open Scope N_scope.

(** ** C08 Call receipts *)
Theorem C08_call_receipt_round_trip :
  forall c, call_receipt_wf c ->
    exists bs, enc_call_receipt c = Some bs /\
      forall rest, dec_call_receipt (bs ++ rest) = Ok (call_view c, rest).
Proof. exact call_receipt_rt. Qed.
Print Assumptions C08_call_receipt_round_trip.

Definition ex_call_ok : call_receipt :=
  mkCallReceipt 0 true None (Some (repeat 5 32)) (Some [1; 2]) (Some 100)
    [repeat 1 20; repeat 2 20] [[104; 105]; []].
Example C08_satisfiable_success : call_receipt_wf ex_call_ok.
Proof.
  split; [reflexivity|]. split.
  { split; [vm_compute; discriminate|]. repeat constructor; vm_compute; discriminate. }
  cbn. repeat split; eauto 10; try (vm_compute; discriminate); try reflexivity.
  - eexists; split; [reflexivity|]. split; [reflexivity|]. repeat constructor.
  - eexists; split; [reflexivity|]. split; [vm_compute; discriminate|]. repeat constructor.
  - repeat constructor; cbn; intuition discriminate.
  - repeat constructor.
Qed.
Definition ex_call_err : call_receipt :=
  mkCallReceipt 0 false (Some (FuncFailed (repeat 1 20) (repeat 2 20) [102] (repeat 65 300)))
    None None (Some 17) [] [[1]].
Example C08_satisfiable_failure : call_receipt_wf ex_call_err /\ call_view ex_call_err <> ex_call_err.
Proof.
  split; [|vm_compute; discriminate]. split; [reflexivity|]. split.
  { split; [vm_compute; discriminate|]. repeat constructor; vm_compute; discriminate. }
  cbn [cr_success ex_call_err cr_error]. eexists; split; [reflexivity|]. cbn [error_wf].
  repeat split; try (vm_compute; discriminate); try reflexivity; try (repeat constructor).
Qed.

(** ** C09 Spawn receipts *)
Theorem C09_spawn_receipt_round_trip :
  forall c, spawn_receipt_wf c ->
    exists bs, enc_spawn_receipt c = Some bs /\
      forall rest, dec_spawn_receipt (bs ++ rest) = Ok (spawn_view c, rest).
Proof. exact spawn_receipt_rt. Qed.
Print Assumptions C09_spawn_receipt_round_trip.

Example C09_satisfiable : spawn_receipt_wf
  (mkSpawnReceipt 0 true None (Some (repeat 7 20)) (Some (repeat 5 32)) (Some []) None [repeat 1 20] []).
Proof.
  split; [reflexivity|]. split. { split; [vm_compute; discriminate|constructor]. }
  cbn. repeat split; try (vm_compute; discriminate); try reflexivity.
  - eexists; split; [reflexivity|]. split; [reflexivity|]. repeat constructor.
  - eexists; split; [reflexivity|]. split; [reflexivity|]. repeat constructor.
  - eexists; split; [reflexivity|]. split; [vm_compute; discriminate|]. repeat constructor.
  - repeat constructor; cbn; intuition discriminate.
  - repeat constructor.
Qed.

(** ** C10 Deploy receipts *)
Theorem C10_deploy_receipt_round_trip :
  forall c, deploy_receipt_wf c ->
    exists bs, enc_deploy_receipt c = Some bs /\
      forall rest, dec_deploy_receipt (bs ++ rest) = Ok (deploy_view c, rest).
Proof. exact deploy_receipt_rt. Qed.
Print Assumptions C10_deploy_receipt_round_trip.

Example C10_satisfiable : deploy_receipt_wf (mkDeployReceipt 0 true None (Some (repeat 7 20)) (Some 5) [[1]])
  /\ deploy_receipt_wf (deploy_from_err OOG [[1]; [2]]).
Proof.
  split; (split; [reflexivity|]); (split; [split; [vm_compute; discriminate|repeat constructor; vm_compute; discriminate]|]); cbn.
  - repeat split. eexists; split; [reflexivity|]. split; [reflexivity|]. repeat constructor.
  - eexists; split; [reflexivity|exact I].
Qed.

(** ** C11 Receipt kinds are not confused *)
Theorem C11_receipt_kind_preserved :
  forall r, receipt_wf r ->
    exists bs r', enc_receipt r = Some bs /\
      (forall rest, dec_receipt (bs ++ rest) = Ok (r', rest))
      /\ kind_of r' = kind_of r /\ succeeded r' = succeeded r.
Proof. exact receipt_kind_preserved. Qed.
Print Assumptions C11_receipt_kind_preserved.

Theorem C11_receipt_round_trip :
  forall r, receipt_wf r ->
    exists bs, enc_receipt r = Some bs /\
      forall rest, dec_receipt (bs ++ rest) =
        Ok (match r with
            | RDeploy d => RDeploy (deploy_view d)
            | RSpawn s => RSpawn (spawn_view s)
            | RCall c => RCall (call_view c)
            end, rest).
Proof. exact receipt_rt. Qed.
Print Assumptions C11_receipt_round_trip.

Example C11_satisfiable : receipt_wf (RCall ex_call_ok) /\ receipt_wf (RCall ex_call_err).
Proof. exact (conj C08_satisfiable_success (proj1 C08_satisfiable_failure)). Qed.

(** ** C54 Encoding a receipt never aborts: false, with the exact condition *)
Theorem C54_receipt_encoding_aborts_exactly_partial :
  forall e, enc_err_body e = None <->
  match e with
  | OOG | TemplateNotFound _ | AccountNotFound _ => False
  | CompilationFailed _ _ s | InstantiationFailed _ _ s
  | FuncNotFound _ _ s | FuncInvalidSignature _ _ s | FuncNotCtor _ s => 255 < nlen s
  | FuncFailed _ _ f m | FuncNotAllowed _ _ f m =>
      255 < nlen f \/ (255 < nlen m /\ utf8_valid (firstn 255 m) = false)
  end.
Proof. exact enc_err_body_none. Qed.
Print Assumptions C54_receipt_encoding_aborts_exactly_partial.

(** A failed call with a 256-byte valid UTF-8 message cannot be encoded. *)
Theorem C54_receipt_encoding_refuted :
  exists m, utf8_valid m = true /\ nlen m = 256 /\
    enc_receipt (RCall (call_from_err (FuncFailed (repeat 1 20) (repeat 2 20) [102] m) [])) = None
    /\ exists m2, utf8_valid m2 = true /\
       enc_receipt (RCall (call_from_err (CompilationFailed (repeat 1 20) (repeat 2 20) m2) [])) = None.
Proof.
  exists (repeat 65 254 ++ [195; 169]). repeat split; try (vm_compute; reflexivity).
  exists (repeat 65 256). split; vm_compute; reflexivity.
Qed.
Print Assumptions C54_receipt_encoding_refuted.

(** ** C55 Receipt decoding never crashes: false for failed receipts, true for successful ones *)
Theorem C55_successful_receipt_decoding_total_partial :
  forall kind bs, kind <= 255 -> dec_receipt (kind :: 0 :: 0 :: 1 :: bs) <> Panic.
Proof. exact receipt_success_no_panic. Qed.
Print Assumptions C55_successful_receipt_decoding_total_partial.

Theorem C55_receipt_decoding_refuted :
  dec_receipt [] = Panic /\ dec_receipt [2; 0; 0; 0] = Panic /\ dec_receipt [2; 0; 0; 0; 10; 0] = Panic
  /\ dec_receipt [2; 0; 1] = Panic /\ dec_receipt [1; 0; 0; 0; 1; 0; 7] = Panic.
Proof. repeat split. Qed.
Print Assumptions C55_receipt_decoding_refuted.
