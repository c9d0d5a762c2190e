(** Which byte strings are receipts, which make receipt decoding abort (C55), and which
    receipts can be encoded (C54). *)
From Coq Require Import List NArith.
From Verif Require Import Base CodecModel CodecSpec ReceiptModel AbortSpec.
Import ListNotations.
Open Scope N_scope.

(** ** On the bytes alone *)

(** One part, then another. *)
Definition followed_by (P Q : bytes -> Prop) (b : bytes) : Prop := exists x y, b = x ++ y /\ P x /\ Q y.
Infix ";;" := followed_by (at level 60, right associativity).

Definition of_length (n : nat) (b : bytes) : Prop := length b = n.
(** Two bytes of length, then that many bytes. *)
Definition blob (b : bytes) : Prop := exists d, nlen d < 65536 /\ b = be_bytes 2 (nlen d) ++ d.
(** One byte counting the logs, then the logs. *)
Definition wire_logs (b : bytes) : Prop := exists ls, nlen ls < 256 /\ Forall blob ls /\ b = nlen ls :: concat ls.
(** Two bytes counting the accounts, then twenty bytes each. *)
Definition wire_accounts (b : bytes) : Prop :=
  exists s, nlen s < 65536 /\ Forall (of_length 20) s /\ b = be_bytes 2 (nlen s) ++ concat s.

(** What follows the logs of a failure of each type. *)
Definition wire_error (ty : N) : bytes -> Prop :=
  match ty with
  | 0 => of_length 0
  | 1 | 2 => of_length 20
  | 3 | 4 | 5 | 9 => of_length 40 ;; text
  | 6 | 8 => of_length 40 ;; text ;; text
  | 7 => of_length 20 ;; text
  | _ => fun _ => False
  end.
Definition wire_failure (b : bytes) : Prop := exists ty, (eq [ty] ;; wire_logs ;; wire_error ty) b.

(** What follows the flag of a successful receipt of each kind: deploy, spawn, call. *)
Definition wire_success (kind : N) : bytes -> Prop :=
  match kind with
  | 0 => of_length 28 ;; wire_logs
  | 1 => of_length 52 ;; blob ;; of_length 8 ;; wire_accounts ;; wire_logs
  | 2 => of_length 32 ;; blob ;; of_length 8 ;; wire_accounts ;; wire_logs
  | _ => fun _ => False
  end.

Definition wire_receipt (b : bytes) : Prop :=
  exists kind, kind < 3 /\ ((eq [kind; 0; 0; 1] ;; wire_success kind) b \/ (eq [kind; 0; 0; 0] ;; wire_failure) b).

(** Aborting: nothing at all, a version other than zero, a failure that cannot be read. *)
Definition bad_receipt (bs : bytes) : Prop :=
  bs = []
  \/ (exists kind version rest, kind < 3 /\ version < 65536 /\ version <> 0 /\ bs = kind :: be_bytes 2 version ++ rest)
  \/ (exists kind tail, kind < 3 /\ bs = [kind; 0; 0; 0] ++ tail
      /\ ~ exists b rest, tail = b ++ rest /\ wire_failure b).

(** ** On receipts *)

Definition logs_fit (ls : list bytes) : Prop := nlen ls <= 255 /\ Forall (fun l => nlen l <= 65535) ls.
(** A text of at most 255 bytes; a message may be longer if its first 255 bytes are UTF-8. *)
Definition error_fits (e : runtime_error) : Prop :=
  match e with
  | OOG | TemplateNotFound _ | AccountNotFound _ => True
  | CompilationFailed _ _ s | InstantiationFailed _ _ s
  | FuncNotFound _ _ s | FuncInvalidSignature _ _ s | FuncNotCtor _ s => nlen s <= 255
  | FuncFailed _ _ f m | FuncNotAllowed _ _ f m =>
      nlen f <= 255 /\ (255 < nlen m -> utf8_valid (firstn 255 m) = true)
  end.
Definition given {A} (P : A -> Prop) (x : option A) : Prop := match x with Some a => P a | None => False end.
Definition present {A} (x : option A) : Prop := given (fun _ => True) x.

Definition encodable (r : receipt) : Prop :=
  match r with
  | RDeploy d =>
      if dr_success d then present (dr_addr d) /\ logs_fit (dr_logs d) else given error_fits (dr_error d)
  | RSpawn s =>
      if sr_success s then
        present (sr_account s) /\ present (sr_init_state s) /\ given (fun d => nlen d <= 65535) (sr_returndata s)
        /\ nlen (sr_touched s) <= 65535 /\ logs_fit (sr_logs s)
      else given error_fits (sr_error s) /\ logs_fit (sr_logs s)
  | RCall c =>
      if cr_success c then
        present (cr_new_state c) /\ given (fun d => nlen d <= 65535) (cr_returndata c)
        /\ nlen (cr_touched c) <= 65535 /\ logs_fit (cr_logs c)
      else given error_fits (cr_error c) /\ logs_fit (cr_logs c)
  end.
