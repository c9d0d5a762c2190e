(** What a receipt may hold to be delivered by the C interface (C109), and which messages
    validation accepts (C110). *)
From Coq Require Import List NArith ZArith Bool.
From Verif Require Import Base Text CodecModel CodecSpec ReceiptModel ReceiptSpec RuntimeModel RuntimeSpec.
Import ListNotations.
Open Scope N_scope.

(** Texts of Rust strings. *)
Definition text_wf (s : bytes) : Prop := bytes_ok s /\ utf8_valid s = true.

(** The messages of the engine are strings. *)
Inductive trap_texts {R} : wasm R -> Prop :=
| tt_return mem r : trap_texts (WReturn mem r)
| tt_trap msg : text_wf msg -> trap_texts (WTrap msg)
| tt_host mem c k : (forall v mem', trap_texts (k v mem')) -> trap_texts (WHost mem c k).
Definition engine_texts (en : engine) : Prop :=
  (forall code msg, en_compile en code = Some msg -> text_wf msg)
  /\ (forall code, trap_texts (en_instantiate en code))
  /\ (forall i name args mem, trap_texts (en_call en i name args mem)).

(** At most 255 logs of at most 65535 bytes. *)
Definition logs_fit (logs : list bytes) : Prop := nlen logs <= 255 /\ Forall (fun l => nlen l <= 65535) logs.
(** At most 65535 bytes of return data. *)
Definition data_fit (d : option bytes) : Prop := match d with Some b => nlen b <= 65535 | None => True end.
(** A text that is sent whole has at most 255 bytes; one that is cut after 255 bytes is not cut
    within a character. *)
Definition error_fit (e : option runtime_error) : Prop :=
  match e with
  | Some (CompilationFailed _ _ s) | Some (InstantiationFailed _ _ s) => nlen s <= 255
  | Some (FuncFailed _ _ _ m) => utf8_valid (firstn 255 m) = true
  | _ => True
  end.
Definition fits (r : receipt) : Prop :=
  match r with
  | RDeploy _ => True
  | RSpawn c => logs_fit (sr_logs c) /\ data_fit (sr_returndata c) /\ nlen (sr_touched c) <= 65535 /\ error_fit (sr_error c)
  | RCall c => logs_fit (cr_logs c) /\ data_fit (cr_returndata c) /\ nlen (cr_touched c) <= 65535 /\ error_fit (cr_error c)
  end.

(** [m] begins with the encoding of a value. *)
Definition starts_with {A} (enc : encoder A) (wf : A -> Prop) (m : bytes) : Prop :=
  exists x b rest, wf x /\ enc x = Some b /\ m = b ++ rest.

(** The version a receipt says it has. *)
Definition receipt_version (r : receipt) : N :=
  match r with RDeploy d => dr_version d | RSpawn s => sr_version s | RCall c => cr_version c end.
