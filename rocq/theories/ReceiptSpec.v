(** Specification vocabulary for the receipt properties (C08-C11, C54). *)
From Coq Require Import List NArith Bool Permutation.
From Verif Require Import Base CodecModel CodecSpec ReceiptModel.
Import ListNotations.
Open Scope N_scope.

Definition logs_wf (ls : list bytes) : Prop := nlen ls <= 255 /\ Forall (blob_wf 65535) ls.
(** A set of addresses in some iteration order. *)
Definition touched_wf (s : list bytes) : Prop :=
  nlen s <= 65535 /\ NoDup s /\ Forall (array_wf 20) s.

(** A message that fits, or whose first 255 bytes end on a character boundary. *)
Definition msg_wf (m : bytes) : Prop :=
  bytes_ok m /\ utf8_valid m = true /\ utf8_valid (firstn 255 m) = true.

Definition error_wf (e : runtime_error) : Prop :=
  match e with
  | OOG => True
  | TemplateNotFound a | AccountNotFound a => array_wf 20 a
  | CompilationFailed a t s | InstantiationFailed a t s
  | FuncNotFound a t s | FuncInvalidSignature a t s =>
      array_wf 20 a /\ array_wf 20 t /\ string_wf 255 s
  | FuncFailed a t f m | FuncNotAllowed a t f m =>
      array_wf 20 a /\ array_wf 20 t /\ string_wf 255 f /\ msg_wf m
  | FuncNotCtor t f => array_wf 20 t /\ string_wf 255 f
  end.

(** What the documented format keeps of an error: messages of failing functions are cut to
    their first 255 bytes. *)
Definition error_on_wire (e : runtime_error) : runtime_error :=
  match e with
  | FuncFailed a t f m => FuncFailed a t f (firstn 255 m)
  | FuncNotAllowed a t f m => FuncNotAllowed a t f (firstn 255 m)
  | _ => e
  end.

(** A successful receipt is fully populated; a failed one has an error. *)
Definition call_receipt_wf (c : call_receipt) : Prop :=
  cr_version c = 0 /\ logs_wf (cr_logs c) /\
  if cr_success c then
    cr_error c = None /\
    (exists st, cr_new_state c = Some st /\ array_wf 32 st) /\
    (exists rd, cr_returndata c = Some rd /\ blob_wf 65535 rd) /\
    gas_wf (cr_gas_used c) /\ touched_wf (cr_touched c)
  else exists e, cr_error c = Some e /\ error_wf e.

Definition spawn_receipt_wf (c : spawn_receipt) : Prop :=
  sr_version c = 0 /\ logs_wf (sr_logs c) /\
  if sr_success c then
    sr_error c = None /\
    (exists a, sr_account c = Some a /\ array_wf 20 a) /\
    (exists st, sr_init_state c = Some st /\ array_wf 32 st) /\
    (exists rd, sr_returndata c = Some rd /\ blob_wf 65535 rd) /\
    gas_wf (sr_gas_used c) /\ touched_wf (sr_touched c)
  else exists e, sr_error c = Some e /\ error_wf e.

Definition deploy_receipt_wf (c : deploy_receipt) : Prop :=
  dr_version c = 0 /\ logs_wf (dr_logs c) /\
  if dr_success c then
    dr_error c = None /\
    (exists a, dr_addr c = Some a /\ array_wf 20 a) /\ gas_wf (dr_gas_used c)
  else exists e, dr_error c = Some e /\ error_wf e.

Definition receipt_wf (r : receipt) : Prop :=
  match r with
  | RDeploy d => deploy_receipt_wf d
  | RSpawn s => spawn_receipt_wf s
  | RCall c => call_receipt_wf c
  end.

(** What the wire format documents as surviving: everything of a success, error and logs of
    a failure (only the error for deploy). *)
Definition call_view (c : call_receipt) : call_receipt :=
  if cr_success c then c
  else mkCallReceipt 0 false (option_map error_on_wire (cr_error c)) None None None [] (cr_logs c).
Definition spawn_view (c : spawn_receipt) : spawn_receipt :=
  if sr_success c then c
  else mkSpawnReceipt 0 false (option_map error_on_wire (sr_error c)) None None None None [] (sr_logs c).
Definition deploy_view (c : deploy_receipt) : deploy_receipt :=
  if dr_success c then c
  else mkDeployReceipt 0 false (option_map error_on_wire (dr_error c)) None None [].

Inductive receipt_kind := KindDeploy | KindSpawn | KindCall.
Definition kind_of (r : receipt) : receipt_kind :=
  match r with RDeploy _ => KindDeploy | RSpawn _ => KindSpawn | RCall _ => KindCall end.
Definition succeeded (r : receipt) : bool :=
  match r with RDeploy d => dr_success d | RSpawn s => sr_success s | RCall c => cr_success c end.
