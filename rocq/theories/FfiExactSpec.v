(** When a runtime can be made. *)
From Coq Require Import List NArith Bool.
From Verif Require Import Base CodecModel ReceiptModel Text StorageModel FfiModel FfiSpec.
Import ListNotations.
Open Scope list_scope.
Open Scope N_scope.

(** A creation failed at a time when the library was already initialised. *)
Definition failed_creation (tr : trace) : Prop :=
  exists tr1 l p tr2, tr = tr1 ++ (CCreate l p, RError) :: tr2 /\ In (CInit, ROk) tr1.
(** Places at which a runtime can be made: memory, or a new database at a path of characters. *)
Definition free_place (l : location) : Prop :=
  match l with InMemory => True | AtPath path contents => utf8_valid path = true /\ contents = Some empty_db end.
