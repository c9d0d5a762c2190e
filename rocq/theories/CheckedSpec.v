(** What a contract does with its answer, for C123. *)
From Coq Require Import List NArith Bool.
From Verif Require Import Base RuntimeModel.
Import ListNotations.
Open Scope N_scope.

(** Whatever the host replies, the code gives its answer at most [n] times. *)
Inductive answers {R} : nat -> wasm R -> Prop :=
| answers_return : forall n mem r, answers n (WReturn mem r)
| answers_trap : forall n msg, answers n (WTrap msg)
| answers_set : forall n mem offset length k,
    (forall v mem', answers n (k v mem')) -> answers (S n) (WHost mem (HSetReturndata offset length) k)
| answers_other : forall n mem c k,
    (forall offset length, c <> HSetReturndata offset length) -> (forall v mem', answers n (k v mem')) ->
    answers n (WHost mem c k).
(** Starting up a module gives no answer, and each of its functions at most one. *)
Definition answers_once (en : engine) : Prop :=
  (forall code, answers 0 (en_instantiate en code))
  /\ (forall i name args mem, answers 1 (en_call en i name args mem)).
(** The two nodes end alike, or the first one panics. *)
Definition same_or_panic {A B} (x y : option A * B) : Prop := x = y \/ fst x = None.
