(** What an operator of a node can know about an account before moving money or going back. *)
From Coq Require Import List NArith ZArith Bool.
From Verif Require Import Base CodecModel LayoutModel SectionModel StorageModel GlobalModel GlobalSpec.
Import ListNotations.
Open Scope N_scope.

(** Nothing is stored about the account: its name, template, balance and counter are not found. *)
Definition absent (e : env) (g : gstate) (a : bytes) : Prop :=
  fields_of e a g = (Err GNotFound, Err GNotFound, Err GNotFound, Err GNotFound).
(** The account is stored with this name, template, balance and counter. *)
Definition recorded (e : env) (g : gstate) (a name t : bytes) (b k : N) : Prop :=
  fields_of e a g = (Ok name, Ok t, Ok b, Ok k).

(** A template that was never stored; one that declares how its accounts lay out their variables;
    one that is stored but declares none. *)
Definition unknown_template (e : env) (g : gstate) (t : bytes) : Prop := fst (template_sections e t g) = Err GNotFound.
Definition laid_out (e : env) (g : gstate) (t : bytes) : Prop :=
  exists l lay rest, fst (template_sections e t g) = Ok l /\ get_section KData l = Some (SData (lay :: rest)).
Definition shapeless (e : env) (g : gstate) (t : bytes) : Prop :=
  exists l, fst (template_sections e t g) = Ok l /\ forall lay rest, get_section KData l <> Some (SData (lay :: rest)).

(** An account that money can be moved to and from. *)
Definition usable (e : env) (g : gstate) (a : bytes) (b : N) : Prop :=
  exists name t k, recorded e g a name t b k /\ laid_out e g t.

(** A layer that was committed. *)
Definition committed_layer (g : gstate) (l : N) : Prop :=
  exists n fp, fst (gs_current_layer g) = Ok (n, fp) /\ l <= n.
