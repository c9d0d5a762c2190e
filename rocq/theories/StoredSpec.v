(** What a contract stores in its variables during a call. *)
From Coq Require Import List NArith Bool.
From Verif Require Import Base CodecModel CodecSpec RuntimeModel RuntimeSpec ObserveSpec.
Import ListNotations.
Open Scope N_scope.

(** The variable stored to and the bytes given, in order: integers little endian, addresses
    as they are in memory. *)
Definition stores_of (h : list event) : list (N * bytes) :=
  flat_map (fun c => match c with
                     | (HSet32 id n, _) => [(id, le_bytes 4 n)]
                     | (HSet64 id n, _) => [(id, le_bytes 8 n)]
                     | (HStore160 ptr id, mem) => [(id, slice mem ptr 20)]
                     | _ => []
                     end) h.
(** All stores of a session. *)
Definition session_stores (s : session) : list (N * bytes) := stores_of (ss_start s ++ ss_alloc s ++ ss_main s).

(** The bytes of a variable of [size] bytes that had [old]: those of the last store. *)
Definition last_stored (id size : N) (old : bytes) (w : list (N * bytes)) : bytes :=
  fold_left (fun v s => if fst s =? id then firstn (N.to_nat size) (snd s) else v) w old.
