(** Specification vocabulary for storage layouts (C14). *)
From Coq Require Import List NArith.
From Verif Require Import Base LayoutModel.
Import ListNotations.
Open Scope N_scope.

Definition total (sizes : list N) : N := fold_right N.add 0 sizes.

(** The variable number [i] of a declaration [sizes] starting at id [first]. *)
Definition declared_var (first : N) (sizes : list N) (i : nat) (v : raw_var) : Prop :=
  rv_id v = first + N.of_nat i
  /\ nth_error sizes i = Some (rv_size v)
  /\ rv_offset v = total (firstn i sizes).

(** Byte [b] of the account storage belongs to variable [v]. *)
Definition covers (v : raw_var) (b : N) : Prop := rv_offset v <= b < rv_offset v + rv_size v.
