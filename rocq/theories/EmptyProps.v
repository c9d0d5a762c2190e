(** C22: variables that cannot be accessed. *)
From Coq Require Import List NArith ZArith Bool Lia.
From Coq Require Import ZifyBool ZifyNat ZifyN.
From Verif Require Import Base CodecModel CodecSpec LayoutModel LayoutSpec LayoutProofs StorageModel StorageSpec GlobalModel GlobalSpec GlobalProofs.
Import ListNotations.
Open Scope list_scope.
Open Scope N_scope.

(** A layout may declare variables of no bytes.  Such a variable can be neither read nor written,
    like one that is not declared: every access aborts, and nothing changes.  (This is the build
    with overflow checks.) *)
Theorem C22_inaccessible :
  forall e g a first sizes id,
  from_byte_sizes first sizes = Some (ac_layout a) ->
  id < first \/ first + nlen sizes <= id \/ nth_error sizes (N.to_nat (id - first)) = Some 0 ->
  get_var_vec e a id g = (Panic, g)
  /\ get_var_i32 e a id g = (Panic, g) /\ get_var_i64 e a id g = (Panic, g)
  /\ (forall n, get_var_array e a n id g = (Panic, g))
  /\ (forall value, set_var_bytes e a id value g = (Panic, g)).
Proof.
  intros e g a first sizes id HF HI.
  assert (R : forall n, var_range a id n = None).
  { intros n. destruct (var_range a id n) as [[size segs]|] eqn:E; [exfalso|reflexivity].
    apply var_range_some in E. destruct E as (v & Hg & -> & _ & Hs & _).
    pose proof (layout_get_spec first sizes _ id HF) as K. rewrite Hg in K. destruct K as (i & -> & Hi & HD).
    replace (first + N.of_nat i - first) with (N.of_nat i) in HI by lia. rewrite Nnat.Nat2N.id in HI.
    destruct HI as [HI|[HI|HI]]; [lia|unfold nlen in HI; lia|].
    destruct (declared_get _ _ _ _ _ HF HI) as (v' & Hg' & _ & Es & _).
    rewrite Hg in Hg'. injection Hg' as <-. rewrite Es in Hs. discriminate Hs. }
  assert (A : forall n, get_var_array e a n id g = (Panic, g)) by (intros n; unfold get_var_array, get_var, gbind; now rewrite R).
  split.
  { unfold get_var_vec, gbind. destruct (layout_get (ac_layout a) id) as [v|]; [|reflexivity]. cbn [gsome]. unfold gret, get_var, gbind. now rewrite R. }
  split; [unfold get_var_i32, gbind; now rewrite A|]. split; [unfold get_var_i64, gbind; now rewrite A|]. split; [exact A|].
  intros value. unfold set_var_bytes, gbind. now rewrite R.
Qed.
Print Assumptions C22_inaccessible.

Example C22_inaccessible_satisfiable :
  exists l, from_byte_sizes 3 [8; 0; 4] = Some l /\ nth_error [8; 0; 4] (N.to_nat (4 - 3)) = Some 0 /\ 3 + nlen [8; 0; 4] <= 6.
Proof. eexists. split; [vm_compute; reflexivity|]. split; vm_compute; [reflexivity|discriminate]. Qed.
