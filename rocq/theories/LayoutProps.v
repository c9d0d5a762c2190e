(** Property theorems for storage layouts. *)
From Coq Require Import List NArith.
From Verif Require Import Base LayoutModel LayoutSpec LayoutProofs.
Import ListNotations.
Open Scope N_scope.

(** ** C14 A layout partitions the storage *)
Theorem C14_layout_partitions_storage :
  forall first sizes l, from_byte_sizes first sizes = Some l ->
  (* the variables found by id are exactly the declared ones *)
  (forall id v, layout_get l id = Some v <->
      exists i, id = first + N.of_nat i /\ nth_error (fl_vars l) i = Some v)
  /\ (forall i s, nth_error sizes i = Some s ->
        exists v, layout_get l (first + N.of_nat i) = Some v
          /\ rv_id v = first + N.of_nat i /\ rv_size v = s)
  (* every byte below the total size belongs to a variable, no other byte does *)
  /\ (forall b, b < total sizes -> exists id v, layout_get l id = Some v /\ covers v b)
  /\ (forall id v b, layout_get l id = Some v -> covers v b -> b < total sizes)
  (* no byte belongs to two variables *)
  /\ (forall id id' v v' b, layout_get l id = Some v -> layout_get l id' = Some v' ->
        covers v b -> covers v' b -> id = id').
Proof. exact layout_partition. Qed.
Print Assumptions C14_layout_partitions_storage.

(** Building a layout fails (overflow panic) exactly when ids or offsets leave 32 bits. *)
Theorem C14_layout_defined_iff :
  forall first sizes,
  (exists l, from_byte_sizes first sizes = Some l) <->
  (sizes = [] \/ (first + nlen sizes - 1 <= 4294967295 /\ total sizes <= 4294967295)).
Proof. exact from_byte_sizes_defined. Qed.
Print Assumptions C14_layout_defined_iff.

(** Variables sit at the sum of the sizes declared before them. *)
Theorem C14_layout_offsets :
  forall first sizes l i, from_byte_sizes first sizes = Some l -> (i < length sizes)%nat ->
  exists v, layout_get l (first + N.of_nat i) = Some v /\
    rv_id v = first + N.of_nat i /\ nth_error sizes i = Some (rv_size v)
    /\ rv_offset v = total (firstn i sizes).
Proof. exact layout_get_declared. Qed.
Print Assumptions C14_layout_offsets.

Example C14_satisfiable : exists l, from_byte_sizes 7 [4; 20; 0; 8] = Some l /\ total [4; 20; 0; 8] = 32.
Proof. eexists. split; reflexivity. Qed.

(** [try_get] announces an optional result, but an undeclared id makes it panic. *)
Theorem C14_try_get_total_refuted :
  exists l id, from_byte_sizes 0 [4] = Some l /\ layout_try_get l id = None.
Proof. eexists. exists 1. split; reflexivity. Qed.
Print Assumptions C14_try_get_total_refuted.
