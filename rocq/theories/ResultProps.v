(** Property C113: results of the C interface and the memory they own. *)
From Coq Require Import List NArith Arith Bool Lia ZifyBool ZifyNat ZifyN.
From Verif Require Import Base ResultModel ResultSpec ResultProofs.
Import ListNotations.
Open Scope N_scope.

(** ** C113 Results own their bytes.
    Whatever results are returned, looked at and freed, in any order, the client sees exactly the
    contents they were made of, nothing is freed twice or read after it was freed, and when all
    results have been given back nothing is left allocated.  This holds as long as no receipt
    is unwrapped. *)
Theorem C113_ownership_partial :
  forall ss, proper_use ss (empty_memory, []) [] ->
  exists xs h rs, result_run ss (empty_memory, []) = Some (xs, (h, rs))
    /\ xs = fst (ideal_run ss [])
    /\ (forall p d, h p = Some d -> In (Some (CErr d)) (snd (ideal_run ss [])) \/ In (Some (CReceipt d)) (snd (ideal_run ss [])))
    /\ (Forall (fun c => c = None) (snd (ideal_run ss [])) -> forall p, h p = None).
Proof.
  intros ss U. destruct (run_sound ss empty_memory [] [] sound_start U) as (xs & h & rs & E & X & So). exists xs, h, rs. split; [exact E|]. split; [exact X|].
  assert (K : forall p d, h p = Some d -> In (Some (CErr d)) (snd (ideal_run ss [])) \/ In (Some (CReceipt d)) (snd (ideal_run ss []))).
  { intros p d H. destruct (so_owner _ _ _ So p d H) as (i & r & c & _ & H2 & O). unfold slot in H2.
    destruct (nth_error (snd (ideal_run ss [])) i) as [[c'|]|] eqn:N; try discriminate. injection H2 as ->. apply nth_error_In in N.
    destruct c; [destruct O as (_ & _ & _ & [])| |]; destruct O as (_ & _ & _ & <- & _); auto. }
  split; [exact K|]. intros F p. destruct (h p) as [d|] eqn:H; [|reflexivity]. exfalso. rewrite Forall_forall in F.
  destruct (K p d H) as [I|I]; apply F in I; discriminate I.
Qed.
Print Assumptions C113_ownership_partial.
(** The receipt that [unwrap] returns has been freed already: reading it is undefined, and so is
    dropping it. *)
Theorem C113_unwrap_dangles :
  forall h p d r h' q n h'', d <> [] -> 1 < p -> h p = None ->
  new_receipt h p d = (Ok r, h') -> unwrap_result h' r = Some (UVec q n, h'') ->
  q = p /\ n = nlen d /\ read_slice h'' q n = None /\ drop_vec h'' q n = None.
Proof.
  intros h p d r h' q n h'' Nd P Hn. unfold new_receipt, leak. destruct d as [|b d]; [congruence|]. destruct (_ <=? _); [|discriminate].
  intros [= <- <-]. unfold unwrap_result, drop_result, drop_vec. cbn [rs_error rs_receipt rs_size N.eqb andb]. set (m := b :: d) in *.
  assert (Z : nlen m <> 0) by (unfold m; rewrite nlen_cons; lia). destruct (N.eqb_spec (nlen m) 0); [congruence|]. destruct (N.eqb_spec p 0); [lia|].
  rewrite store_same, N.eqb_refl. intros [= <- <- <-]. split; [reflexivity|]. split; [reflexivity|]. unfold read_slice.
  destruct (N.eqb_spec (nlen m) 0); [congruence|]. destruct (N.eqb_spec p 0); [lia|]. rewrite store_same. auto.
Qed.
Print Assumptions C113_unwrap_dangles.
Theorem C113_unwrap_refuted :
  ~ (forall h p d r h' q n h'', 1 < p -> h p = None ->
     new_receipt h p d = (Ok r, h') -> unwrap_result h' r = Some (UVec q n, h'') -> read_slice h'' q n = Some d).
Proof.
  intros H.
  assert (K : read_slice (store_at (store_at empty_memory 16 (Some [7])) 16 None) 16 1 = Some [7]).
  { apply (H empty_memory 16 [7] (mkResult 16 0 1) (store_at empty_memory 16 (Some [7]))); try reflexivity. }
  vm_compute in K. discriminate K.
Qed.
Print Assumptions C113_unwrap_refuted.
(** A clone shares the bytes: when the original is dropped, looking at the clone is undefined,
    and dropping it frees them a second time. *)
Theorem C113_clone_refuted :
  ~ (forall h p d r h' h'', 1 < p -> h p = None -> new_receipt h p d = (Ok r, h') ->
     drop_result h' r = Some h'' -> receipt_of h'' (clone_result r) <> None /\ drop_result h'' (clone_result r) <> None).
Proof.
  intros H.
  destruct (H empty_memory 16 [7] (mkResult 16 0 1) (store_at empty_memory 16 (Some [7])) (store_at (store_at empty_memory 16 (Some [7])) 16 None)) as [K _];
    try reflexivity. apply K. reflexivity.
Qed.
Print Assumptions C113_clone_refuted.
Example C113_satisfiable :
  let ss := [Make (CReceipt [1; 2; 3]) 16; Make (CErr [9]) 32; Make COk 0; Look 0; Look 1; Free 0; Look 2; Unwrap 1; Make (CReceipt []) 16; Look 3; Unwrap 2; Free 3] in
  ideal_run ss [] = ([SMade; SMade; SMade; SLook true (Some [1; 2; 3]); SLook false None; SFreed; SLook true None; SUnwrapped UPanic; SMade;
    SLook true (Some []); SUnwrapped UNothing; SFreed], [None; None; None; None])
  /\ proper_use [Make (CReceipt [1; 2; 3]) 16; Make (CErr [9]) 32; Look 0; Free 0; Make (CReceipt [5]) 16; Unwrap 1; Look 2; Free 2] (empty_memory, []) [].
Proof.
  split; [reflexivity|]. cbn [proper_use].
  repeat match goal with
  | |- _ /\ _ => split
  | |- forall _, _ => intro
  | H : Some _ = Some _ |- _ => injection H as <- <-
  | H : result_step _ _ = Some _ |- _ => progress cbv in H
  end; try exact I; try (vm_compute; reflexivity); try discriminate; try (vm_compute; discriminate).
Qed.
(** A result counts as failed exactly if it was made from an error, whatever the error's bytes
    (also when there are none), as long as memory is not handed out at address zero. *)
Theorem C113_flags :
  (forall h p d r h', p <> 0 -> new_error h p d = (Ok r, h') -> is_ok r = false /\ is_err r = true) /\
  (forall h p d r h', new_receipt h p d = (Ok r, h') -> is_ok r = true /\ is_err r = false) /\
  is_ok result_ok = true /\ is_err result_ok = false.
Proof.
  split; [|split; [|split; reflexivity]].
  - intros h p d r h' P. unfold new_error, leak, is_err, is_ok. destruct d as [|b d]; (destruct (_ <=? _); [|discriminate]); intros [= <- _]; cbn [rs_error].
    + split; reflexivity.
    + destruct (N.eqb_spec p 0); [contradiction|]. split; reflexivity.
  - intros h p d r h'. unfold new_receipt, is_err, is_ok. destruct (leak h p d) as [q h1]. destruct (_ <=? _); [|discriminate]. intros [= <- _]. split; reflexivity.
Qed.
Print Assumptions C113_flags.
