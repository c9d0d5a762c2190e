(** Property C124: which calldata a contract can read, and what it reads. *)
From Coq Require Import List NArith ZArith Bool Lia.
From Verif Require Import Base SdkModel SdkSpec SdkProofs AbiModel AbiSpec AbiProofs AbiProps AbiExactSpec AbiExactProofs.
Import ListNotations.
Open Scope list_scope.
Open Scope N_scope.

(** ** C124 What calldata says *)
(** A value is decoded exactly if the bytes at the cursor begin with bytes that say it, and it
    is not an array of eight elements; the cursor moves past these bytes. *)
Theorem C124_value_exactly :
  forall before bs v c, bytes_ok bs ->
  (decode_value (mkCursor (before ++ bs) (nlen before)) = Ok (v, c) <->
   exists b rest, bs = b ++ rest /\ says b v /\ ~ array_of_eight v /\ c = mkCursor (before ++ bs) (nlen before + nlen b)).
Proof.
  intros before bs v c B. assert (X : forall b rest, at_ (before ++ b) rest = mkCursor (before ++ b ++ rest) (nlen before + nlen b)).
  { intros b rest. unfold at_. now rewrite <- app_assoc, nlen_app. }
  split.
  - intros H. destruct (value_read _ _ _ _ B H) as (b & rest & -> & S1 & N8 & ->). exists b, rest. rewrite X. auto.
  - intros (b & rest & -> & S1 & N8 & ->). apply Forall_app in B. rewrite <- X. apply value_says; tauto.
Qed.
Print Assumptions C124_value_exactly.
(** The decoder reports an error exactly if the end is missing.  On all other bytes it aborts. *)
Theorem C124_errors_exactly :
  forall before bs, bytes_ok bs ->
  ((exists e, decode_value (mkCursor (before ++ bs) (nlen before)) = Err e) <-> cut_short bs).
Proof. intros before bs B. exact (value_err before bs B). Qed.
Print Assumptions C124_errors_exactly.
(** Bytes say at most one value, and no value's bytes begin another's. *)
Theorem C124_unambiguous :
  forall b1 b2 rest1 rest2 v1 v2, bytes_ok (b1 ++ rest1) -> says b1 v1 -> says b2 v2 -> b1 ++ rest1 = b2 ++ rest2 ->
  v1 = v2 /\ b1 = b2 /\ rest1 = rest2.
Proof.
  intros b1 b2 r1 r2 v1 v2 B S1 S2 E.
  destruct (says_unique b1 b2 r1 r2 v1 v2 B S1 S2 E) as [-> ->]. split; [reflexivity|]. split; [reflexivity|]. now apply app_inv_head in E.
Qed.
Print Assumptions C124_unambiguous.
(** A contract that asks for [n] values gets them exactly if the calldata begins with bytes that
    say as many values; what it gets is what they say. *)
Theorem C124_values_exactly :
  forall bs n vs c, bytes_ok bs ->
  (next_values n (calldata_new bs) = Some (vs, c) <->
   length vs = n /\ Forall (fun v => ~ array_of_eight v) vs /\
   exists b rest, bs = b ++ rest /\ say_all b vs /\ c = mkCursor bs (nlen b)).
Proof.
  intros bs n vs c B. change (calldata_new bs) with (at_ [] bs). rewrite (values_exact n [] bs vs c B). unfold at_. cbn [app].
  split; intros (L & F & b & rest & E & S1 & ->); (split; [exact L|]; split; [exact F|]; exists b, rest; rewrite E; auto).
Qed.
Print Assumptions C124_values_exactly.
(** A contract that asks for arguments of some types gets them exactly if the calldata begins
    with bytes that say values of these types. *)
Theorem C124_arguments_exactly :
  forall bs ts rs c, bytes_ok bs ->
  (next_tuple ts (calldata_new bs) = Some (rs, c) <->
   Forall2 typed ts rs /\ Forall (fun r => ~ array_of_eight (rust_value r)) rs /\
   exists b rest, bs = b ++ rest /\ say_all b (map rust_value rs) /\ c = mkCursor bs (nlen b)).
Proof.
  intros bs ts rs c B. unfold next_tuple. split.
  - destruct (next_values (length ts) (calldata_new bs)) as [[vs c']|] eqn:E; [|discriminate]. cbn [obind]. destruct (from_values ts vs) as [rs'|] eqn:Ef; [|discriminate].
    cbn [obind]. intros [= -> ->]. apply C124_values_exactly in E; [|exact B]. destruct E as (L & F8 & b & rest & -> & S1 & ->).
    assert (Fl : Forall flat vs). { apply Forall_app in B. eapply say_flat; [exact (proj1 B)|exact S1]. }
    apply from_values_exact in Ef; [|exact Fl|exact L]. destruct Ef as [T <-]. split; [exact T|]. split; [apply (proj1 (Forall_map rust_value (fun v => ~ array_of_eight v) rs)); exact F8|]. exists b, rest. auto.
  - intros (T & F8 & b & rest & -> & S1 & ->). assert (Ln : length ts = length rs) by (clear -T; induction T; cbn; congruence).
    rewrite (proj2 (C124_values_exactly (b ++ rest) (length ts) (map rust_value rs) (mkCursor (b ++ rest) (nlen b)) B)).
    + cbn [obind]. now rewrite from_values_typed by exact T.
    + split; [now rewrite map_length|]. split; [apply (proj2 (Forall_map rust_value (fun v => ~ array_of_eight v) rs)); exact F8|]. exists b, rest. auto.
Qed.
Print Assumptions C124_arguments_exactly.
(** The encoder's output says the value, and is among all bytes that say it the shortest. *)
Theorem C124_encoder_says :
  forall v e, flat v -> encodes v e -> says e v /\ forall b, bytes_ok b -> says b v -> ~ array_of_eight v -> nlen e <= nlen b.
Proof.
  intros v e F E. apply (proj1 (C41_format v F)) in E. subst e. split; [now apply says_format|].
  intros b B Sb N8. pose proof (value_says [] b [] v B Sb N8) as D. rewrite app_nil_r in D. cbn [app] in D.
  pose proof (decode_value_min (mkCursor b 0) v (mkCursor b (nlen b)) B) as M. unfold at_ in D. rewrite app_nil_r in D. specialize (M D). exact M.
Qed.
Print Assumptions C124_encoder_says.
(** Five, written with a leading zero, then the array [true; false], and one byte more. *)
Example C124_satisfiable :
  bytes_ok [82; 0; 5; 38; 16; 0; 9]
  /\ next_tuple [YPrim (YInt U16); YArray YBool 2] (calldata_new [82; 0; 5; 38; 16; 0; 9])
     = Some ([RPrim (PInt U16 5); RArray [PBool true; PBool false]], mkCursor [82; 0; 5; 38; 16; 0; 9] 6)
  /\ say_all [82; 0; 5; 38; 16; 0] [VPrim (PInt U16 5); VVec [VPrim (PBool true); VPrim (PBool false)]]
  /\ cut_short [82; 0] /\ (forall e, decode_value (mkCursor [82; 0] 0) = Err e -> e = NotEnoughBytes)
  /\ decode_value (mkCursor [8] 0) = Panic.
Proof.
  split; [repeat constructor|]. split; [reflexivity|]. split.
  { exists [[82; 0; 5]; [38; 16; 0]]. split; [|reflexivity]. constructor; [|constructor; [|constructor]].
    - exists [0; 5]. split; [discriminate|]. split; [discriminate|]. split; [split; [discriminate|reflexivity]|]. split; reflexivity.
    - exists [[16]; [0]], [PBool true; PBool false]. split; [reflexivity|]. split; [repeat constructor|]. split; [discriminate|reflexivity]. }
  split; [|split; [intros e H; vm_compute in H; congruence|reflexivity]].
  exists [5], (VPrim (PInt U16 5)). split; [discriminate|]. split; [repeat constructor|].
  exists [0; 5]. split; [discriminate|]. split; [discriminate|]. split; [split; [discriminate|reflexivity]|]. split; reflexivity.
Qed.
