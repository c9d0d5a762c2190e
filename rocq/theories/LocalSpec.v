(** Specification: two states that agree on what a call works with. *)
From Coq Require Import List NArith ZArith Bool.
From Verif Require Import Base CodecModel CodecSpec StorageModel GlobalModel RuntimeModel.
Import ListNotations.
Open Scope N_scope.

(** A key reads the same now. *)
Definition reads_same (e : env) (key : bytes) (g1 g2 : gstate) : Prop :=
  fst (gs_get e key None g1) = fst (gs_get e key None g2).

(** The templates and the unchangeable parts of the accounts are the same; the balances and
    counters of the listed accounts are the same; the variables of [target] are the same.
    Everything else may differ.  (The variables are kept in segments numbered by a u32.) *)
Record same_for (e : env) (target : bytes) (listed : list bytes) (g1 g2 : gstate) : Prop := {
  sf_templates : forall t, array_wf 20 t -> reads_same e (key_core t) g1 g2 /\ reads_same e (key_noncore t) g1 g2;
  sf_records : forall a, array_wf 20 a -> reads_same e (key_immutable a) g1 g2;
  sf_balances : forall a, In a listed -> reads_same e (key_mutable a) g1 g2;
  sf_variables : forall n, n <= u32_max -> reads_same e (key_segment target n) g1 g2
}.
