(** Exactly when decoding a template aborts, is accepted, or is refused (C56). *)
From Coq Require Import List NArith ZArith Lia Bool.
From Verif Require Import Base CodecModel CodecSpec SectionModel AbortSpec AbortProofs.
Import ListNotations.
Open Scope N_scope.

(** ** C56 Template decoding never crashes *)

(** Decoding aborts exactly on the byte strings described in [AbortSpec]; everything else is
    accepted or refused with an error. *)
Theorem C56_aborts_exactly :
  forall interests bs, bytes_ok bs ->
  (dec_sections interests bs = Panic <-> bad_template interests bs)
  /\ (dec_template interests bs = Panic <-> bad_template interests bs).
Proof.
  intros i bs Hb. split; [now apply sections_abort|]. rewrite <- (sections_abort i bs Hb). unfold dec_template.
  destruct (dec_sections i bs) as [[l r]| |]; cbn [bind]; [|split; discriminate|split; auto].
  destruct (_ && _); split; discriminate.
Qed.
Print Assumptions C56_aborts_exactly.

(** The announced sections are read exactly if each of them passes. *)
Theorem C56_reads_exactly :
  forall interests bs, bytes_ok bs ->
  ((exists l rest, dec_sections interests bs = Ok (l, rest)) <->
   exists parts rest, nlen parts < 65536 /\ Forall (passes interests) parts
     /\ bs = be_bytes 2 (nlen parts) ++ concat parts ++ rest).
Proof. exact sections_read. Qed.
Print Assumptions C56_reads_exactly.

(** A code section of an unknown kind is refused, not aborted on; the same bytes abort once the
    kind is known and the gas mode is not; both are skipped if code was not asked for. *)
Definition ex_unknown_kind : bytes := be_bytes 2 1 ++ preview KCode 26 ++ [0; 2] ++ repeat 0 24.
Definition ex_unknown_mode : bytes := be_bytes 2 1 ++ preview KCode 26 ++ [0; 1] ++ repeat 0 24.
Example C56_aborts_satisfiable :
  bytes_ok ex_unknown_kind /\ bytes_ok ex_unknown_mode
  /\ bad_template None ex_unknown_mode /\ ~ bad_template None ex_unknown_kind
  /\ (exists e, dec_template None ex_unknown_kind = Err e)
  /\ ~ bad_template (Some [KData; KCtors]) ex_unknown_mode
  /\ passes (Some [KData; KCtors]) (preview KCode 26 ++ [0; 1] ++ repeat 0 24).
Proof.
  assert (H1 : bytes_ok ex_unknown_kind) by (repeat constructor).
  assert (H2 : bytes_ok ex_unknown_mode) by (repeat constructor).
  split; [exact H1|]. split; [exact H2|]. split; [|split; [|split; [|split]]].
  - apply C56_aborts_exactly; [exact H2|]. vm_compute. reflexivity.
  - intros H. apply C56_aborts_exactly in H; [|exact H1]. vm_compute in H. discriminate.
  - eexists. vm_compute. reflexivity.
  - intros H. apply C56_aborts_exactly in H; [|exact H2]. vm_compute in H. discriminate.
  - exists KCode, 26, ([0; 1] ++ repeat 0 24). split; [reflexivity|]. split; [reflexivity|]. right.
    split; [|reflexivity]. intros [H|[H|[]]]; discriminate.
Qed.
