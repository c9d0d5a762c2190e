(** C94 and C95: the fields of a contract's storage. *)
From Coq Require Import List NArith ZArith Bool Lia.
From Coq Require Import ZifyBool ZifyNat ZifyN.
From Verif Require Import Base CodecModel CodecSpec LayoutModel LayoutSpec StorageModel StorageSpec GlobalModel GlobalSpec.
From Verif Require Import RuntimeModel RuntimeSpec RuntimeProofs RuntimeProps SdkModel SdkSpec AbiModel AbiSpec.
From Verif Require Import TypedModel TypedSpec TypedProofs.
Import ListNotations.
Open Scope list_scope.
Open Scope N_scope.

(** ** C94 Storage fields behave as typed variables *)

(** Whatever the fields and the sequence of reads and writes: the contract sees what was last
    written to each field or cell, and aborts at an index beyond the end of an array; the
    account then holds the values written, other accounts hold what they did. *)
Theorem C94_typed_storage :
  forall e fs vs f g st mem l,
  iterates e -> collision_free e -> gs_reachable e g -> array_wf 20 (ac_addr (fe_account f)) ->
  (* the struct compiles, and the account's template declares its variables *)
  storage_vars fs = Some vs -> from_byte_sizes 0 (cell_sizes fs) = Some (ac_layout (fe_account f)) ->
  (* the contract runs with full access, and memory for the addresses it handles *)
  fe_mode f = FullAccess -> fe_memory f = true ->
  fe_used f + 20 * (nlen l + 1) <= nlen mem -> nlen mem < 2 ^ 32 -> bytes_ok mem ->
  represents e (fe_account f) fs g st -> Forall (access_ok fs) l ->
  exists g' f', gs_reachable e g'
    /\ represents e (fe_account f) fs g' (snd (typed_run fs st l))
    /\ (forall b id, array_wf 20 (ac_addr b) -> ac_addr b <> ac_addr (fe_account f) ->
          fst (get_var_vec e b id g') = fst (get_var_vec e b id g))
    /\ match fst (typed_run fs st l) with
       | Some rs => exists mem', run_wasm e (contract vs l mem) f g = (Ok (mem', rs, f'), g')
       | None => run_wasm e (contract vs l mem) f g = (Err ([], f'), g')
       end.
Proof.
  intros e fs vs f g st mem l HI HC HR Ha Hvs Hl Hm Hmem Hs Hb Hok HS Hacc.
  apply (contract_runs e HI HC (fe_account f) Ha fs vs Hvs Hl l mem f g st); auto. constructor; auto.
Qed.
Print Assumptions C94_typed_storage.
(** Before any write to the account, every field is zero. *)
Theorem C94_fresh :
  forall e a fs g, iterates e -> collision_free e -> array_wf 20 (ac_addr a) -> gs_reachable e g ->
  from_byte_sizes 0 (cell_sizes fs) = Some (ac_layout a) ->
  (forall n, fst (gs_get e (key_segment (ac_addr a) n) None g) = Ok None) ->
  represents e a fs g (zero_store fs).
Proof. exact fresh_zero. Qed.
Print Assumptions C94_fresh.

Definition tx_fields : list field_type := [FPrim TU64; FPrim TI32; FPrim TAddress].
Definition tx_store : store := fun i _ => nth i [PInt U64 7; PInt I32 0; PAddress (repeat 0 20)] PUnit.
Definition tx_env : func_env := with_memory (env_new rx_acc (rx_taddr 1) FullAccess).
Definition tx_ops : list access :=
  [Get 0 None; Set_ 1 None (PInt I32 (-5)); Set_ 2 None (PAddress (repeat 9 20)); Get 2 None; Get 1 None; Get 0 None].
Example C94_satisfiable :
  exists vs, storage_vars tx_fields = Some vs
  /\ from_byte_sizes 0 (cell_sizes tx_fields) = Some (ac_layout (fe_account tx_env))
  /\ fe_used tx_env + 20 * (nlen tx_ops + 1) <= nlen (repeat 0 200)
  /\ represents rx_env (fe_account tx_env) tx_fields rx_state tx_store
  /\ Forall (access_ok tx_fields) tx_ops
  /\ fst (typed_run tx_fields tx_store tx_ops)
     = Some [Read (PInt U64 7); Written; Written; Read (PAddress (repeat 9 20)); Read (PInt I32 (-5)); Read (PInt U64 7)].
Proof.
  eexists. split; [reflexivity|]. split; [vm_compute; reflexivity|]. split; [vm_compute; discriminate|]. split; [|split].
  - intros [|[|[|i]]] f k Ei Lk; try (destruct i; discriminate Ei); injection Ei as <-; cbn [field_cells] in Lk;
      assert (k = 0) by lia; subst k; (split; [|vm_compute; reflexivity]).
    + split; [reflexivity|]. split; vm_compute; [discriminate|reflexivity].
    + split; [reflexivity|]. split; vm_compute; [discriminate|reflexivity].
    + split; [|reflexivity]. repeat constructor.
  - repeat constructor; eexists; (split; [reflexivity|]); try exact Logic.I; (split; [exact Logic.I|]).
    + split; [reflexivity|]. split; vm_compute; [discriminate|reflexivity].
    + split; [|reflexivity]. repeat constructor.
  - vm_compute. reflexivity.
Qed.
(** An array: the index beyond its end aborts, and what was written before stays. *)
Example C94_array :
  let fs := [FArray TI8 3; FPrim TBool] in
  let l := [Set_ 0 (Some 2) (PInt I8 (-128)); Set_ 1 None (PBool true); Get 0 (Some 2); Get 0 (Some 3)] in
  Forall (access_ok fs) l
  /\ fst (typed_run fs (zero_store fs) l) = None
  /\ fst (typed_run fs (zero_store fs) (firstn 3 l)) = Some [Written; Written; Read (PInt I8 (-128))]
  /\ snd (typed_run fs (zero_store fs) l) 0%nat 2 = PInt I8 (-128)
  /\ snd (typed_run fs (zero_store fs) l) 0%nat 1 = PInt I8 0.
Proof.
  cbv zeta. split; [|vm_compute; repeat split].
  repeat constructor; eexists; (split; [reflexivity|]); try (vm_compute; reflexivity).
  - split; [vm_compute; reflexivity|]. split; [reflexivity|]. split; vm_compute; [discriminate|reflexivity].
  - split; exact Logic.I.
Qed.

(** ** C95 Contract tests on the mock storage agree with the chain *)

(** From an account never written and an empty mock, the same accesses see the same values and
    abort at the same point.  Missing: storage functions called with identifiers and widths of
    the author's own choice (see below). *)
Theorem C95_mock_agrees_partial :
  forall e fs vs f g mem mem2 l,
  iterates e -> collision_free e -> gs_reachable e g -> array_wf 20 (ac_addr (fe_account f)) ->
  storage_vars fs = Some vs -> from_byte_sizes 0 (cell_sizes fs) = Some (ac_layout (fe_account f)) ->
  fe_mode f = FullAccess -> fe_memory f = true ->
  fe_used f + 20 * (nlen l + 1) <= nlen mem -> nlen mem < 2 ^ 32 -> bytes_ok mem -> bytes_ok mem2 ->
  (forall n, fst (gs_get e (key_segment (ac_addr (fe_account f)) n) None g) = Ok None) ->
  Forall (access_ok fs) l ->
  exists mem' mem2' f' g' m',
    (exists rs, run_wasm e (contract vs l mem) f g = (Ok (mem', rs, f'), g')
             /\ run_mock (contract vs l mem2) [] = (Ok (mem2', rs), m'))
    \/ (run_wasm e (contract vs l mem) f g = (Err ([], f'), g')
        /\ run_mock (contract vs l mem2) [] = (Err tt, m')).
Proof.
  intros e fs vs f g mem mem2 l HI HC HR Ha Hvs Hl Hm Hmem Hs Hb Hok Hok2 Hfr Hacc.
  pose proof (fresh_zero e (fe_account f) fs g HI HC Ha HR Hl Hfr) as HS.
  destruct (C94_typed_storage e fs vs f g (zero_store fs) mem l HI HC HR Ha Hvs Hl Hm Hmem Hs Hb Hok HS Hacc) as (g' & f' & _ & _ & _ & M).
  destruct (contract_mock fs vs l Hvs mem2 [] (zero_store fs)) as (m' & _ & M2); auto.
  { intros i fl k Ei Lk. unfold zero_store. rewrite Ei. split; [apply zero_of_type|]. reflexivity. }
  destruct (fst (typed_run fs (zero_store fs) l)) as [rs|].
  - destruct M as [mem' M]. destruct M2 as [mem2' M2]. exists mem', mem2', f', g', m'. left. eauto.
  - exists [], [], f', g', m'. right. auto.
Qed.
Print Assumptions C95_mock_agrees_partial.
(** Called directly, [set32] and [get32] of a one-byte variable keep the low byte on the chain
    and everything in the mock. *)
Theorem C95_raw_calls_refuted :
  ~ (forall e a g v m, gs_reachable e g -> iterates e -> collision_free e -> array_wf 20 (ac_addr a) ->
     from_byte_sizes 0 [1] = Some (ac_layout a) -> v < 2 ^ 32 ->
     let f := with_memory (env_new a (rx_taddr 1) FullAccess) in
     let c := (let~ _ := set32 0 v in get32 0) in
     match run_wasm e (c []) f g, run_mock (c []) m with
     | (Ok (_, x, _), _), (Ok (_, y), _) => x = y
     | _, _ => True
     end).
Proof.
  intros H. destruct (from_byte_sizes 0 [1]) as [lay|] eqn:El; [|vm_compute in El; discriminate El].
  specialize (H rx_env (mkAccount rx_a (rx_taddr 1) lay) rx_state 300 [] (proj1 rx_live) rx_iterates rx_collision_free rx_a_wf eq_refl eq_refl).
  cbv zeta in H. injection El as <-. vm_compute in H. discriminate H.
Qed.
Print Assumptions C95_raw_calls_refuted.
Example C95_satisfiable :
  (exists vs, storage_vars [FArray TI8 3; FPrim TBool] = Some vs
   /\ run_mock (contract vs [Set_ 0 (Some 2) (PInt I8 (-128)); Get 0 (Some 2); Get 1 None] []) []
      = (Ok ([], [Written; Read (PInt I8 (-128)); Read (PBool false)]), [(2, MI32 4294967168)]))
  /\ (forall n, fst (gs_get rx_env (key_segment (repeat 200 20) n) None rx_start) = Ok None).
Proof. split; [eexists; split; [reflexivity|vm_compute; reflexivity]|]. intros n. reflexivity. Qed.
