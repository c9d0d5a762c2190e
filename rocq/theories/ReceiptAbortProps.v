(** C54 and C55: exactly which receipts can be encoded, and exactly which byte strings are
    read as receipts or make decoding abort. *)
From Coq Require Import List NArith Lia.
From Verif Require Import Base CodecModel CodecSpec ReceiptModel AbortSpec ReceiptAbortSpec ReceiptAbortProofs.
Import ListNotations.
Open Scope N_scope.

(** A receipt of any kind is encoded exactly if the fields of its kind are there and fit. *)
Theorem C54_encodes_exactly : forall r, (exists bs, enc_receipt r = Some bs) <-> encodable r.
Proof.
  intros r. rewrite <- receipt_encodes. destruct (enc_receipt r); split; try discriminate; eauto.
  - intros [bs E]. discriminate.
  - intros H. now elim H.
Qed.
Print Assumptions C54_encodes_exactly.

(** Logs of 255 entries and a message of 300 bytes still fit; one more log does not, except
    in a failed deploy, whose logs are not written. *)
Example C54_encodes_satisfiable :
  encodable (RCall (call_from_err (FuncFailed [] [] (repeat 97 255) (repeat 97 300)) (repeat [1] 255)))
  /\ ~ encodable (RCall (call_from_err OOG (repeat [1] 256)))
  /\ encodable (RDeploy (deploy_from_err OOG (repeat [1] 256))).
Proof.
  split; [|split].
  - cbn [encodable cr_success call_from_err given cr_error cr_logs error_fits]. split; [split|split].
    + apply N.leb_le. vm_compute. reflexivity.
    + intros _. vm_compute. reflexivity.
    + apply N.leb_le. vm_compute. reflexivity.
    + apply Forall_forall. intros l Hl. apply repeat_spec in Hl. subst l. apply N.leb_le. vm_compute. reflexivity.
  - intros [_ [H _]]. apply N.leb_le in H. vm_compute in H. discriminate.
  - exact I.
Qed.

(** Decoding aborts exactly on the byte strings described in [ReceiptAbortSpec]; everything
    else is accepted or refused with an error. *)
Theorem C55_aborts_exactly : forall bs, bytes_ok bs -> (dec_receipt bs = Panic <-> bad_receipt bs).
Proof. exact receipt_aborts. Qed.
Print Assumptions C55_aborts_exactly.

(** A receipt is read exactly if the bytes begin with one, and no further than it goes. *)
Theorem C55_reads_exactly : forall bs rest, bytes_ok bs ->
  ((exists r, dec_receipt bs = Ok (r, rest)) <-> exists b, bs = b ++ rest /\ wire_receipt b).
Proof.
  intros bs rest Hb. split.
  - intros [r E]. exact (r_ok reads_receipt _ _ _ Hb E).
  - intros (b & -> & g). apply bytes_ok_app in Hb as [Hb _]. exact (r_good reads_receipt b rest Hb g).
Qed.
Print Assumptions C55_reads_exactly.

(** A failed call that ran out of gas with one log is read; without its log count it aborts. *)
Example C55_exactly_satisfiable :
  wire_receipt [2; 0; 0; 0; 0; 1; 0; 2; 104; 105] /\ bad_receipt [2; 0; 0; 0; 0]
  /\ exists r, dec_receipt ([2; 0; 0; 0; 0; 1; 0; 2; 104; 105] ++ [9]) = Ok (r, [9]).
Proof.
  split; [|split].
  - exists 2. split; [reflexivity|]. right. exists [2; 0; 0; 0], [0; 1; 0; 2; 104; 105]. split; [reflexivity|].
    split; [reflexivity|]. exists 0, [0], [1; 0; 2; 104; 105]. split; [reflexivity|]. split; [reflexivity|].
    exists [1; 0; 2; 104; 105], []. split; [reflexivity|]. split; [|reflexivity].
    exists [[0; 2; 104; 105]]. split; [reflexivity|]. split; [|reflexivity].
    constructor; [|constructor]. exists [104; 105]. split; reflexivity.
  - right. right. exists 2, [0]. split; [reflexivity|]. split; [reflexivity|].
    intros (b & rest & E & ty & x & y & -> & <- & u & v & -> & (ls & _ & _ & ->) & _). discriminate E.
  - eexists. vm_compute. reflexivity.
Qed.
