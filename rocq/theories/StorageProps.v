(** Property theorems for the layered store. *)
From Coq Require Import List NArith ZArith Bool Permutation.
From Verif Require Import Base ReceiptModel StorageModel StorageSpec StorageProofs.
Import ListNotations.
Open Scope Z_scope.

(** The environment used by the examples: identity hash, maps iterated in list order. *)
Definition ex_env : env := mkEnv (fun b => b) (fun c => c).
Lemma ex_env_iterates : iterates ex_env.
Proof. intros c. apply Permutation_refl. Qed.

Definition k1 : bytes := [1%N]. Definition k2 : bytes := [2%N].
Definition va : bytes := [10%N]. Definition vb : bytes := [11%N]. Definition vc : bytes := [12%N].

(** ** C15 Read your own writes.
    For every history, every reply and every read (current or historical) of the store is
    the one of the log: the newest write not rolled back, rewound or later than the layer. *)
Theorem C15_storage_refines_log :
  forall e ops, iterates e -> rewinds_above (-2) ops ->
  open_db empty_db = Ok fresh /\
  let (rs, s) := exec_all e ops fresh in
  let (rs', v) := perform_all ops empty_versions in
  rs = rs'
  /\ (forall k, get_by_hash s k None = Ok (read_now v k))
  /\ (forall k l, get_by_hash s k (Some l) = if l <? next_layer v then Ok (read_at v l k) else Panic)
  /\ has_uncommitted_changes s = match pending v with [] => false | _ => true end.
Proof. exact storage_refines. Qed.
Print Assumptions C15_storage_refines_log.

Definition ex_history : list op :=
  [Upsert k1 va; Checkpoint; Commit; Upsert k1 vb; Upsert k2 vc; Checkpoint; Upsert k2 va; Rollback;
   Commit; Upsert k1 vc; Commit; Checkpoint; Rewind 0; Upsert k2 vb].
Example C15_satisfiable :
  iterates ex_env /\ rewinds_above (-2) ex_history
  /\ fst (exec_all ex_env ex_history fresh)
     = [Done; Done; Committed (-1); Done; Done; Done; Done; Done; Committed 0; Done; HasPending; Done; Done; Done]
  /\ get_by_hash (snd (exec_all ex_env ex_history fresh)) k1 None = Ok (Some vb)
  /\ get_by_hash (snd (exec_all ex_env ex_history fresh)) k2 None = Ok (Some vb)
  /\ get_by_hash (snd (exec_all ex_env ex_history fresh)) k2 (Some 0) = Ok (Some vc)
  /\ get_by_hash (snd (exec_all ex_env ex_history fresh)) k2 (Some (-1)) = Ok None.
Proof.
  split; [exact ex_env_iterates|]. split; [repeat constructor; discriminate|].
  repeat split; vm_compute; reflexivity.
Qed.

Theorem C15_upsert_then_get :
  forall s k k' x,
  get_by_hash (upsert_by_hash s k x) k' None
  = if bytes_eqb k' k then Ok (Some x) else get_by_hash s k' None.
Proof. exact get_upsert. Qed.
Print Assumptions C15_upsert_then_get.

(** The same for keys, when the hash does not collide on the two keys involved. *)
Theorem C15_upsert_then_get_key :
  forall e s key key' x,
  (env_hash e key' = env_hash e key -> key' = key) ->
  get e (upsert e s key x) key' None
  = if bytes_eqb key' key then Ok (Some x) else get e s key' None.
Proof.
  intros e s key key' x H. unfold get, upsert. rewrite get_upsert.
  destruct (bytes_dec key' key) as [->|N].
  - now rewrite !beqb_refl.
  - rewrite (beqb_neq key' key) by auto. rewrite beqb_neq; auto.
Qed.
Print Assumptions C15_upsert_then_get_key.

Theorem C15_checkpoint_keeps_reads :
  forall e s k, iterates e -> reachable e s ->
  get_by_hash (checkpoint e s) k None = get_by_hash s k None.
Proof. exact get_checkpoint. Qed.
Print Assumptions C15_checkpoint_keeps_reads.

Example ex_reachable : reachable ex_env (snd (exec_all ex_env ex_history fresh)).
Proof. exists ex_history. split; [repeat constructor; discriminate|reflexivity]. Qed.

(** ** C16 Committed layers are immutable *)
Theorem C16_committed_layers_immutable :
  forall e s l ops k,
  iterates e -> reachable e s -> l < st_next_id s ->
  rewinds_above (-2) ops -> rewinds_above l ops ->
  get_by_hash (snd (exec_all e ops s)) k (Some l) = get_by_hash s k (Some l).
Proof. exact committed_immutable. Qed.
Print Assumptions C16_committed_layers_immutable.
Example C16_satisfiable :
  let s := snd (exec_all ex_env [Upsert k1 va; Checkpoint; Commit] fresh) in
  reachable ex_env s /\ -1 < st_next_id s
  /\ rewinds_above (-2) [Upsert k1 vb; Checkpoint; Commit; Rewind (-1)]
  /\ rewinds_above (-1) [Upsert k1 vb; Checkpoint; Commit; Rewind (-1)]
  /\ get_by_hash s k1 (Some (-1)) = Ok (Some va).
Proof.
  cbv zeta. split.
  - eexists. split; [|reflexivity]. repeat constructor.
  - split; [reflexivity|]. split; [repeat constructor; discriminate|].
    split; [repeat constructor; discriminate|reflexivity].
Qed.

(** ** C17 Rewind restores the past.
    After rewinding to a committed layer, the storage cannot be told apart from the one right
    after that commit: same reads, same last layer, and the same replies, reads and last
    layer after any further operations. *)
Theorem C17_rewind_restores :
  forall e s l fp s1 ops s3,
  iterates e -> reachable e s -> commit e s = (Ok (l, fp), s1) -> rewinds_above l ops ->
  rewind (snd (exec_all e ops s1)) l = (Ok tt, s3) ->
  (forall k m, get_by_hash s3 k m = get_by_hash s1 k m) /\ last_layer s3 = last_layer s1 /\
  forall more, rewinds_above (-2) more ->
    fst (exec_all e more s3) = fst (exec_all e more s1) /\
    (forall k m, get_by_hash (snd (exec_all e more s3)) k m = get_by_hash (snd (exec_all e more s1)) k m) /\
    last_layer (snd (exec_all e more s3)) = last_layer (snd (exec_all e more s1)).
Proof. exact rewind_restores. Qed.
Print Assumptions C17_rewind_restores.
Example C17_satisfiable :
  exists s s1 s3,
  reachable ex_env s /\ commit ex_env s = (Ok (-1, state_zeros), s1)
  /\ rewinds_above (-1) [Upsert k1 vb; Checkpoint; Commit; Upsert k2 va; Checkpoint]
  /\ rewind (snd (exec_all ex_env [Upsert k1 vb; Checkpoint; Commit; Upsert k2 va; Checkpoint] s1)) (-1) = (Ok tt, s3)
  /\ get_by_hash s3 k1 None = Ok (Some va).
Proof.
  exists (snd (exec_all ex_env [Upsert k1 va; Checkpoint] fresh)). do 2 eexists.
  split; [eexists; split; [|reflexivity]; repeat constructor|].
  split; [vm_compute; reflexivity|]. split; [repeat constructor|].
  split; vm_compute; reflexivity.
Qed.

(** Rewinding to the root (layer -2) is not the same as a fresh storage: the genesis layer
    gets another fingerprint.  Rewinding below the root is accepted and breaks the storage. *)
Theorem C17_rewind_to_root_refuted :
  exists s, fst (rewind fresh (-2)) = Ok tt /\ snd (rewind fresh (-2)) = s /\
    fst (commit ex_env s) = Ok (-1, state_ones) /\ fst (commit ex_env fresh) = Ok (-1, state_zeros).
Proof. eexists. repeat split; vm_compute; reflexivity. Qed.
Print Assumptions C17_rewind_to_root_refuted.
Theorem C17_rewind_below_root_refuted :
  exists s, rewind fresh (-3) = (Ok tt, s) /\ fst (commit ex_env s) = Err ESqlite /\ last_layer s = Panic.
Proof. eexists. repeat split; vm_compute; reflexivity. Qed.
Print Assumptions C17_rewind_below_root_refuted.

(** ** C18 Rollback discards exactly the writes since the last checkpoint *)
Theorem C18_rollback_exact :
  forall s writes, has_uncommitted_changes s = false ->
  rollback (fold_left (fun s '(k, x) => upsert_by_hash s k x) writes s) = s.
Proof.
  intros s writes H.
  assert (E : forall s, rollback (fold_left (fun s '(k, x) => upsert_by_hash s k x) writes s) = rollback s).
  { clear. induction writes as [|[k x] ws IH]; intros s; cbn; auto. rewrite IH. reflexivity. }
  rewrite E. unfold has_uncommitted_changes in H. destruct s as [d [|] n c x]; [reflexivity|discriminate].
Qed.
Print Assumptions C18_rollback_exact.
(** Every checkpoint, commit, rewind and rollback leaves such a state. *)
Theorem C18_boundaries :
  forall e s,
  has_uncommitted_changes (checkpoint e s) = false
  /\ has_uncommitted_changes (rollback s) = false
  /\ (forall r s', commit e s = (Ok r, s') -> has_uncommitted_changes s' = false)
  /\ (forall l s', rewind s l = (Ok tt, s') -> has_uncommitted_changes s' = false).
Proof.
  intros e s. split; [rewrite checkpoint_eq; reflexivity|]. split; [reflexivity|]. split.
  - intros r s'. unfold commit. destruct (st_dirty s); [|discriminate].
    destruct (layer_fingerprint _ _ _); try discriminate. destruct (insert_layer _ _ _ _); try discriminate.
    destruct (insert_values _ _ _); try discriminate. intros [= <- <-]. reflexivity.
  - intros l s'. unfold rewind. destruct (_ <? _); [|discriminate]. destruct (st_dirty s); [|discriminate].
    intros [= <-]. reflexivity.
Qed.
Print Assumptions C18_boundaries.
Example C18_satisfiable :
  has_uncommitted_changes (snd (exec_all ex_env [Upsert k1 va; Checkpoint] fresh)) = false
  /\ get_by_hash (fold_left (fun s '(k, x) => upsert_by_hash s k x) [(k1, vb); (k2, vc)]
        (snd (exec_all ex_env [Upsert k1 va; Checkpoint] fresh))) k1 None = Ok (Some vb).
Proof. split; reflexivity. Qed.

(** ** C19 Commit is guarded and all-or-nothing *)
Theorem C19_guarded :
  forall e s l, has_uncommitted_changes s = true ->
  commit e s = (Err EDirtyChanges, s)
  /\ (l < st_next_id s -> rewind s l = (Err EDirtyChanges, s)).
Proof.
  intros e s l H. unfold has_uncommitted_changes in H. unfold commit, rewind.
  destruct (st_dirty s); [discriminate|]. split; auto. intros Hl.
  apply Z.ltb_lt in Hl. now rewrite Hl.
Qed.
Print Assumptions C19_guarded.
Example C19_guarded_satisfiable : has_uncommitted_changes (upsert_by_hash fresh k1 va) = true /\ -2 < st_next_id fresh.
Proof. split; reflexivity. Qed.

Theorem C19_commit_exact :
  forall e s, iterates e -> reachable e s -> has_uncommitted_changes s = false ->
  exists l prev fp s',
    last_layer s = Ok (l - 1, prev) /\
    commit e s = (Ok (l, fp), s') /\
    last_layer s' = Ok (l, fp) /\
    (forall k, get_by_hash s' k None = get_by_hash s k None) /\
    (forall k, get_by_hash s' k (Some l) = get_by_hash s k None) /\
    (forall k m, m < l -> get_by_hash s' k (Some m) = get_by_hash s k (Some m)).
Proof. exact commit_spec. Qed.
Print Assumptions C19_commit_exact.
Example C19_commit_satisfiable :
  reachable ex_env (snd (exec_all ex_env [Upsert k1 va; Checkpoint] fresh)).
Proof. eexists. split; [|reflexivity]. repeat constructor. Qed.

(** When the database fails during a commit, the error is reported but the store then shows
    some of the layer's writes and not others, and can never commit again. *)
Definition torn_before : storage :=
  snd (exec_all ex_env [Upsert k1 va; Checkpoint; Commit; Upsert k1 vb; Upsert k2 vc; Checkpoint] fresh).
Definition torn_db : db :=
  mkDb (db_layers (st_db torn_before) ++ [mkLayerRow 0 state_ones false])
       (db_values (st_db torn_before) ++ [mkValueRow k1 vb 0]).
Theorem C19_failed_commit_refuted :
  exists s', reachable ex_env torn_before /\ failed_commit ex_env torn_before s' /\
    get_by_hash s' k1 None = Ok (Some vb) /\ get_by_hash s' k2 None = Ok None /\
    get_by_hash s' k1 (Some (-1)) = Ok (Some va) /\
    fst (commit ex_env s') = Err ESqlite /\ snd (commit ex_env s') = s'.
Proof.
  eexists. split; [eexists; split; [|reflexivity]; repeat constructor|]. split.
  { split; [reflexivity|]. exists torn_db. split; [|reflexivity].
    refine (ic_values _ _ state_zeros (mkDb (db_layers (st_db torn_before) ++ [mkLayerRow 0 state_ones false]) (db_values (st_db torn_before))) [mkValueRow k1 vb 0] _ _ _);
      [vm_compute; reflexivity|vm_compute; reflexivity|].
    intros r [<-|[]]. split; [vm_compute; auto|reflexivity]. }
  repeat split; vm_compute; reflexivity.
Qed.
Print Assumptions C19_failed_commit_refuted.

(** ** C20 Crash during commit.
    What is proved: whatever point the commit is interrupted at, the clean-up statement that
    runs on opening leaves a database whose complete layers read as before or as after the
    commit.  What is missing: opening such a database does not succeed at all. *)
Theorem C20_crash_commit_partial :
  forall e s d,
  iterates e -> reachable e s -> has_uncommitted_changes s = false -> interrupted_commit e s d ->
  same_reads (delete_bad_layers d) (st_db s)
  \/ exists r s', commit e s = (Ok r, s') /\ same_reads (delete_bad_layers d) (st_db s').
Proof. exact crash_commit. Qed.
Print Assumptions C20_crash_commit_partial.
Example C20_satisfiable :
  reachable ex_env torn_before /\ has_uncommitted_changes torn_before = false
  /\ interrupted_commit ex_env torn_before torn_db.
Proof.
  split; [eexists; split; [|reflexivity]; repeat constructor|]. split; [reflexivity|].
  refine (ic_values _ _ state_zeros (mkDb (db_layers (st_db torn_before) ++ [mkLayerRow 0 state_ones false]) (db_values (st_db torn_before))) [mkValueRow k1 vb 0] _ _ _);
      [vm_compute; reflexivity|vm_compute; reflexivity|].
  intros r [<-|[]]. split; [vm_compute; auto|reflexivity].
Qed.

(** Re-opening the database of any storage ever used fails, crash or not. *)
Theorem C20_reopen_refuted :
  forall e s, iterates e -> reachable e s -> open_db (st_db s) = Err ESqlite.
Proof. intros e s HI HR. apply reopen_fails. eapply reachable_root; eauto. Qed.
Print Assumptions C20_reopen_refuted.

(** ** C21 State fingerprint.
    Proved: the fingerprint is determined by the history.  In fact it is determined by the
    layer number alone, so it does not commit to the data. *)
Theorem C21_fingerprint_deterministic_partial :
  forall e ops, iterates e -> rewinds_above (-1) ops ->
  exists l, last_layer (snd (exec_all e ops fresh))
            = Ok (l, if (l =? -2) || Z.even (l + 1) then repeat 0%N 32 else repeat 255%N 32).

Proof.
  intros e ops HI HO. destruct (fingerprint_by_layer e ops HI HO) as [l E]. exists l. rewrite E.
  unfold parity_fp. destruct (l =? -2); [reflexivity|]. destruct (Z.even (l + 1)); reflexivity.
Qed.
Print Assumptions C21_fingerprint_deterministic_partial.
Theorem C21_fingerprint_refuted :
  (* whatever the hash function *)
  forall e e' ops ops', iterates e -> iterates e' -> rewinds_above (-1) ops -> rewinds_above (-1) ops' ->
  forall l fp fp',
  last_layer (snd (exec_all e ops fresh)) = Ok (l, fp) ->
  last_layer (snd (exec_all e' ops' fresh)) = Ok (l, fp') -> fp = fp'.
Proof.
  intros e e' ops ops' HI HI' HO HO' l fp fp' E E'.
  destruct (fingerprint_by_layer e ops HI HO) as [l1 E1]. destruct (fingerprint_by_layer e' ops' HI' HO') as [l2 E2].
  rewrite E in E1. rewrite E' in E2. injection E1 as -> ->. injection E2 as <- ->. reflexivity.
Qed.
Print Assumptions C21_fingerprint_refuted.
Example C21_satisfiable :
  exists fp,
  last_layer (snd (exec_all ex_env [Upsert k1 va; Checkpoint; Commit] fresh)) = Ok (-1, fp)
  /\ last_layer (snd (exec_all ex_env [Upsert k1 vb; Checkpoint; Commit] fresh)) = Ok (-1, fp)
  /\ get_by_hash (snd (exec_all ex_env [Upsert k1 va; Checkpoint; Commit] fresh)) k1 None
     <> get_by_hash (snd (exec_all ex_env [Upsert k1 vb; Checkpoint; Commit] fresh)) k1 None.
Proof. eexists. repeat split; try (vm_compute; reflexivity). vm_compute. discriminate. Qed.
