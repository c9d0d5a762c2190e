(** Specification vocabulary for the typed global state (C22, C23, C26, C57-C59). *)
From Coq Require Import List NArith ZArith Bool.
From Verif Require Import Base CodecModel CodecSpec LayoutModel SectionModel SectionSpec.
From Verif Require Import StorageModel StorageSpec GlobalModel.
Import ListNotations.
Open Scope N_scope.

(** The keys under which the global state keeps its entries: 20-byte addresses, 32-bit
    segment numbers. *)
Inductive storage_key : bytes -> Prop :=
| sk_immutable a : array_wf 20 a -> storage_key (key_immutable a)
| sk_mutable a : array_wf 20 a -> storage_key (key_mutable a)
| sk_segment a n : array_wf 20 a -> n <= u32_max -> storage_key (key_segment a n)
| sk_core a : array_wf 20 a -> storage_key (key_core a)
| sk_noncore a : array_wf 20 a -> storage_key (key_noncore a).

(** The hash has no collisions between these keys (there are fewer than 2^193 of them):
    the hypothesis under which hashed keys identify entries. *)
Definition collision_free (e : env) : Prop :=
  forall a b, storage_key a -> storage_key b -> env_hash e a = env_hash e b -> a = b.

(** Everything a client can do to the global state. *)
Inductive gop :=
| GTemplate (addr : bytes) (core noncore : sections)
| GStub (addr name : bytes) (balance counter : N)
| GCreate (addr name taddr : bytes) (balance counter : N)
| GSetVar (a : account) (id : N) (v : bytes)
| GSetBalance (addr : bytes) (b : N)
| GSetCounter (addr : bytes) (c : N)
| GCheckpoint | GCommit | GRollback | GRewind (l : N)
| GLayerParam (l : option N).

(** The arguments are values of their Rust types. *)
Definition gop_wf (o : gop) : Prop :=
  match o with
  | GTemplate addr core noncore => array_wf 20 addr /\ sections_wf core /\ sections_wf noncore
  | GStub addr name b c => array_wf 20 addr /\ string_wf 255 name /\ uint_wf 64 b /\ uint_wf 128 c
  | GCreate addr name taddr b c =>
      array_wf 20 addr /\ string_wf 255 name /\ array_wf 20 taddr /\ uint_wf 64 b /\ uint_wf 128 c
  | GSetVar a id v => array_wf 20 (ac_addr a) /\ bytes_ok v
  | GSetBalance addr b => array_wf 20 addr /\ uint_wf 64 b
  | GSetCounter addr c => array_wf 20 addr /\ uint_wf 128 c
  | GRewind l => True
  | _ => True
  end.

Definition run_gop (e : env) (o : gop) (g : gstate) : gstate :=
  match o with
  | GTemplate addr core noncore => snd (template_create e addr core noncore g)
  | GStub addr name b c => snd (account_create_stub e addr name b c g)
  | GCreate addr name taddr b c => snd (account_create e addr name taddr b c g)
  | GSetVar a id v => snd (set_var_bytes e a id v g)
  | GSetBalance addr b => snd (set_balance e addr b g)
  | GSetCounter addr c => snd (set_counter e addr c g)
  | GCheckpoint => snd (gs_checkpoint e g)
  | GCommit => snd (gs_commit e g)
  | GRollback => snd (gs_rollback g)
  | GRewind l => snd (gs_rewind l g)
  | GLayerParam l => mkGstate (gs_storage g) l
  end.

(** Global states reached from a new, empty database by any history of client calls,
    whatever their outcome. *)
Inductive gs_reachable (e : env) : gstate -> Prop :=
| gr_new ts g : Forall (fun t => array_wf 20 (fst t) /\ sections_wf (snd t)) ts ->
    gs_new e empty_db ts = Some g -> gs_reachable e g
| gr_op o g : gs_reachable e g -> gop_wf o -> gs_reachable e (run_gop e o g).

(** The fields of an account, read through the API. *)
Definition fields_of (e : env) (addr : bytes) (g : gstate) :=
  (fst (account_name e addr g), fst (account_template e addr g),
   fst (account_balance e addr g), fst (account_counter e addr g)).

(** The same state queried at a layer ([None]: now). *)
Definition at_layer (l : option N) (g : gstate) : gstate := mkGstate (gs_storage g) l.
(** A history of client calls. *)
Definition run_gops (e : env) (ops : list gop) (g : gstate) : gstate := fold_left (fun g o => run_gop e o g) ops g.
