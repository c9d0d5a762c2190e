(** Specification of the layered store: a log of writes cut into layers.  Nothing here
    mentions SQL, fingerprints or hash maps, except the last section, which applies the same
    operations to the model of the code. *)
From Coq Require Import List NArith ZArith Bool Permutation.
From Verif Require Import Base ReceiptModel StorageModel.
Import ListNotations.
Open Scope Z_scope.

(** A log of writes, newest first. *)
Definition log := list (bytes * bytes).

(** The newest value written to [k]. *)
Fixpoint newest (k : bytes) (l : log) : option bytes :=
  match l with
  | [] => None
  | (k', v) :: l' => if bytes_eqb k k' then Some v else newest k l'
  end.

(** Layer [-2] is the empty root, then the genesis layer [-1], layer 0, ... *)
Record versions := mkVersions {
  committed : list log;   (* oldest first; position i is layer i - 2 *)
  staged : log;           (* checkpointed, not committed *)
  pending : log }.        (* not checkpointed *)

Definition empty_versions : versions := mkVersions [[]] [] [].

Inductive op :=
| Upsert (k v : bytes) | Checkpoint | Rollback | Commit | Rewind (layer : Z).

(** The layer being built. *)
Definition next_layer (s : versions) : Z := Z.of_nat (length (committed s)) - 2.

(** Writes of the layers up to and including [l]. *)
Definition upto (l : Z) (s : versions) : list log := firstn (Z.to_nat (l + 3)) (committed s).

Definition read_now (s : versions) (k : bytes) : option bytes :=
  newest k (pending s ++ staged s ++ concat (rev (committed s))).
Definition read_at (s : versions) (l : Z) (k : bytes) : option bytes :=
  newest k (concat (rev (upto l s))).

Inductive reply := Done | Committed (layer : Z) | HasPending | DbError | Aborted.

Definition perform (o : op) (s : versions) : reply * versions :=
  match o with
  | Upsert k v => (Done, mkVersions (committed s) (staged s) ((k, v) :: pending s))
  | Checkpoint => (Done, mkVersions (committed s) (pending s ++ staged s) [])
  | Rollback => (Done, mkVersions (committed s) (staged s) [])
  | Commit =>
    match pending s with
    | _ :: _ => (HasPending, s)
    | [] => (Committed (next_layer s), mkVersions (committed s ++ [staged s]) [] [])
    end
  | Rewind l =>
    if l <? next_layer s then
      match pending s with
      | _ :: _ => (HasPending, s)
      | [] => (Done, mkVersions (upto l s) [] [])
      end
    else (Aborted, s)
  end.

Fixpoint perform_all (ops : list op) (s : versions) : list reply * versions :=
  match ops with
  | [] => ([], s)
  | o :: os => let (r, s1) := perform o s in
               let (rs, s2) := perform_all os s1 in (r :: rs, s2)
  end.

(** Histories in which no rewind goes below layer [low]. *)
Definition rewinds_above (low : Z) (ops : list op) : Prop :=
  Forall (fun o => match o with Rewind l => low <= l | _ => True end) ops.

(** * Applying operations to the modelled storage *)

Definition exec (e : env) (o : op) (s : storage) : reply * storage :=
  match o with
  | Upsert k v => (Done, upsert_by_hash s k v)
  | Checkpoint => (Done, checkpoint e s)
  | Rollback => (Done, rollback s)
  | Commit =>
    match commit e s with
    | (Ok (l, _), s') => (Committed l, s')
    | (Err EDirtyChanges, s') => (HasPending, s')
    | (Err ESqlite, s') => (DbError, s')
    | (Panic, s') => (Aborted, s')
    end
  | Rewind l =>
    match rewind s l with
    | (Ok _, s') => (Done, s')
    | (Err EDirtyChanges, s') => (HasPending, s')
    | (Err ESqlite, s') => (DbError, s')
    | (Panic, s') => (Aborted, s')
    end
  end.

Fixpoint exec_all (e : env) (ops : list op) (s : storage) : list reply * storage :=
  match ops with
  | [] => ([], s)
  | o :: os => let (r, s1) := exec e o s in
               let (rs, s2) := exec_all e os s1 in (r :: rs, s2)
  end.

(** A hash map is iterated in some order, each entry once. *)
Definition iterates (e : env) : Prop := forall c, Permutation (env_iter e c) c.

(** The storage created on an empty database file. *)
Definition fresh : storage :=
  match open_db empty_db with Ok s => s | _ => mkStorage empty_db [] 0 [] [] end.

(** A storage reached from a fresh one by some history that never rewinds past the root. *)
Definition reachable (e : env) (s : storage) : Prop :=
  exists ops, rewinds_above (-2) ops /\ snd (exec_all e ops fresh) = s.
