(** Specification: two states with the same contents. *)
From Coq Require Import List NArith ZArith Bool.
From Verif Require Import Base CodecModel ReceiptModel StorageModel GlobalModel RuntimeModel RuntimeSpec.
Import ListNotations.
Open Scope N_scope.

(** Every key reads the same now. *)
Definition same_contents (e : env) (g1 g2 : gstate) : Prop :=
  forall key, fst (gs_get e key None g1) = fst (gs_get e key None g2).

(** A receipt without the fingerprint of the new state (but with the fact that there is one). *)
Definition but_state (r : call_receipt) : call_receipt :=
  mkCallReceipt (cr_version r) (cr_success r) (cr_error r) (option_map (fun _ => []) (cr_new_state r)) (cr_returndata r)
    (cr_gas_used r) (cr_touched r) (cr_logs r).
Definition but_init_state (r : spawn_receipt) : spawn_receipt :=
  mkSpawnReceipt (sr_version r) (sr_success r) (sr_error r) (sr_account r) (option_map (fun _ => []) (sr_init_state r)) (sr_returndata r)
    (sr_gas_used r) (sr_touched r) (sr_logs r).

(** Any operation but a rewind. *)
Definition onward (o : rop) : Prop := match o with TRewind _ => False | _ => True end.
