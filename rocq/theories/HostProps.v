(** C101: the host that contract tests run on. *)
From Coq Require Import List NArith ZArith Bool Lia.
From Verif Require Import Base SdkModel AbiModel AbiSpec AbiProofs HostModel HostSpec HostProofs.
Import ListNotations.
Open Scope N_scope.

(** ** C101 The test host answers what the test set up *)

(** Any history of calls is answered as expected, panics included, whatever the hash map's random
    numbers.  Missing: equal addresses that are different objects, transfers to oneself, resets
    after coins were given out and arrays as arguments; each is refuted below. *)
Theorem C101_agrees_partial :
  forall mem sees os, finds_itself sees -> one_object_each mem os -> all_plain (map (by_bytes mem) os) fresh ->
  fst (host_run mem sees os host_new) = answers (map (by_bytes mem) os) fresh.
Proof.
  intros mem sees os S1 U P. apply (run_expected mem sees S1 (flat_map pointers os) U); auto. apply shows_new.
Qed.
Print Assumptions C101_agrees_partial.
(** A call that panics changes nothing. *)
Theorem C101_no_trace :
  forall mem sees o h, fst (host_step mem sees o h) = None -> snd (host_step mem sees o h) = h.
Proof. exact panic_no_trace. Qed.
Print Assumptions C101_no_trace.
(** A transfer that does not panic moves its amount to the other account and conserves the coins
    of any set of accounts with both parties. *)
Theorem C101_transfer :
  forall mem sees os accounts src dst n,
  finds_itself sees -> one_object_each mem (os ++ map BalanceOf accounts) ->
  NoDup accounts -> In src accounts -> In dst accounts -> src <> dst ->
  let h := snd (host_run mem sees os host_new) in
  h_target h = Some src -> fst (host_step mem sees (Transfer dst n) h) = Some Done ->
  let h' := snd (host_step mem sees (Transfer dst n) h) in
  balance_of mem sees h' src + n = balance_of mem sees h src /\ balance_of mem sees h' dst = balance_of mem sees h dst + n
  /\ coins (balance_of mem sees h') accounts = coins (balance_of mem sees h) accounts.
Proof.
  intros mem sees os accounts src dst n S1 U ND Is Id Hne h Et E.
  assert (Hin : forall p, In p accounts -> In p (flat_map pointers (os ++ map BalanceOf accounts))).
  { intros p Hp. rewrite flat_map_app. apply in_or_app. right. apply in_flat_map. exists (BalanceOf p). split; [now apply in_map|now left]. }
  assert (O : owned (flat_map pointers (os ++ map BalanceOf accounts)) h).
  { apply (owned_run mem sees S1 _ U); [split; [intros e []|discriminate]|]. intros p Hp. rewrite flat_map_app. apply in_or_app. now left. }
  cbn [host_step] in *. destruct (host_transfer mem sees h dst n) as [k|] eqn:Ek; [|discriminate E]. cbn [change snd].
  apply (transfer_coins mem sees S1 _ U h src dst n k accounts O Et (Hin dst Id) Hne Ek ND Hin Is Id).
Qed.
Print Assumptions C101_transfer.
(** The contract reads the arguments the test has set. *)
Theorem C101_arguments :
  forall mem sees h ts rs, Forall2 typed ts rs -> Forall (fun r => ~ is_array r) rs ->
  exists e c, fst (host_run mem sees [SetCalldata rs; Calldata] h) = [Some Done; Some (Bytes e)]
    /\ next_tuple ts (calldata_new e) = Some (rs, c) /\ calldata_next c = Some None.
Proof.
  intros mem sees h ts rs T A. exists (encoded rs).
  assert (N8 : Forall (fun r => ~ array_of_eight (rust_value r)) rs).
  { eapply Forall_impl; [|exact A]. intros r H X. destruct r as [|p|[p|]|l]; try contradiction X. apply H. exact Logic.I. }
  pose proof (next_tuple_ok ts rs [] [] T N8) as X. rewrite app_nil_r in X. rewrite <- encoded_eq in X. eexists. split; [|split; [exact X|apply next_end]].
  cbn [host_run host_step]. rewrite calldata_arguments by (split; eauto). reflexivity.
Qed.
Print Assumptions C101_arguments.
(** After a reset everything but the coins is as on a new host. *)
Theorem C101_reset_partial :
  forall mem sees os1 os2, Forall (fun o => ~ about_coins o) os2 ->
  fst (host_run mem sees os2 (snd (host_run mem sees (os1 ++ [Reset]) host_new))) = fst (host_run mem sees os2 host_new).
Proof.
  intros mem sees os1 os2 F. apply same_run; auto. rewrite run_app. cbn [host_run host_step change snd]. repeat split.
Qed.
Print Assumptions C101_reset_partial.

(** Two objects with the same bytes are the same address, but the hash map is searched by object:
    the coins given to an address are not seen at an equal one. *)
Theorem C101_equal_addresses_refuted :
  ~ (forall mem sees os, finds_itself sees -> all_plain (map (by_bytes mem) os) fresh ->
     fst (host_run mem sees os host_new) = answers (map (by_bytes mem) os) fresh).
Proof.
  intros H. specialize (H (fun _ => repeat 7 20) (fun _ p q => p =? q) [SetBalance 1 10; BalanceOf 2]).
  assert (E : [Some Done; Some (Number 0)] = [Some Done; Some (Number 10)]).
  { apply H; [intros t p; apply N.eqb_refl|]. cbn. tauto. }
  discriminate E.
Qed.
Print Assumptions C101_equal_addresses_refuted.
(** A transfer from the target to itself gives it coins. *)
Theorem C101_self_transfer_refuted :
  ~ (forall mem sees os, finds_itself sees -> one_object_each mem os ->
     (forall o, In o os -> o <> Reset /\ forall rs, o <> SetCalldata rs) ->
     fst (host_run mem sees os host_new) = answers (map (by_bytes mem) os) fresh).
Proof.
  intros H. specialize (H (fun _ => repeat 7 20) (fun _ p q => p =? q) [SetTarget 1; SetBalance 1 10; Transfer 1 4; Balance]).
  assert (E : [Some Done; Some Done; Some Done; Some (Number 14)] = [Some Done; Some Done; Some Done; Some (Number 10)]).
  { apply H.
    - intros t p. apply N.eqb_refl.
    - intros p q Hp Hq _. cbn in Hp, Hq. intuition congruence.
    - intros o Ho. cbn in Ho. decompose [or] Ho; subst; try tauto; split; discriminate. }
  discriminate E.
Qed.
Print Assumptions C101_self_transfer_refuted.
(** A reset leaves the coins of the test before. *)
Theorem C101_reset_refuted :
  ~ (forall mem sees os1 os2, finds_itself sees -> one_object_each mem (os1 ++ os2) ->
     fst (host_run mem sees os2 (snd (host_run mem sees (os1 ++ [Reset]) host_new))) = fst (host_run mem sees os2 host_new)).
Proof.
  intros H. specialize (H (fun _ => repeat 7 20) (fun _ p q => p =? q) [SetBalance 1 10] [BalanceOf 1]).
  assert (E : [Some (Number 10)] = [Some (Number 0)]).
  { apply H; [intros t p; apply N.eqb_refl|]. intros p q Hp Hq _. cbn in Hp, Hq. intuition congruence. }
  discriminate E.
Qed.
Print Assumptions C101_reset_refuted.
(** Arguments with an array cannot be set, though they can be encoded. *)
Theorem C101_array_arguments_refuted :
  ~ (forall mem sees h ts rs, Forall2 typed ts rs -> fst (host_step mem sees (SetCalldata rs) h) = Some Done).
Proof.
  intros H. specialize (H (fun _ => []) (fun _ _ _ => true) host_new [YArray YBool 1] [RArray [PBool true]]).
  assert (E : None = Some Done).
  { apply H. constructor; [|constructor]. split; [reflexivity|]. split; [discriminate|]. repeat constructor. eexists. reflexivity. }
  discriminate E.
Qed.
Print Assumptions C101_array_arguments_refuted.

(** A test that sets two balances and pays twice, the second time too much; its answers. *)
Definition hx_mem (p : N) : bytes := repeat p 20.
Definition hx_test : list (hop N) :=
  [SetTarget 1; SetBalance 1 10; SetBalance 2 20; SetCalldata [RPrim (PInt U16 300%Z); ROption None]; Calldata;
   Transfer 2 4; Balance; BalanceOf 2; Transfer 2 7; Balance; Value; Log [104; 105] 3; Logs; Principal].
Example C101_satisfiable :
  finds_itself (fun _ p q => p mod 2 =? q mod 2) /\ one_object_each hx_mem (hx_test ++ map BalanceOf [1; 2])
  /\ all_plain (map (by_bytes hx_mem) hx_test) fresh
  /\ fst (host_run hx_mem (fun _ p q => p mod 2 =? q mod 2) hx_test host_new)
     = [Some Done; Some Done; Some Done; Some Done; Some (Bytes (encoded [RPrim (PInt U16 300%Z); ROption None]));
        Some Done; Some (Number 6); Some (Number 24); None; Some (Number 6); None; Some Done; Some (Messages [([104; 105], 3)]); None]
  /\ h_target (snd (host_run hx_mem (fun _ p q => p mod 2 =? q mod 2) hx_test host_new)) = Some 1.
Proof.
  split; [intros t p; apply N.eqb_refl|]. split.
  { intros p q Hp Hq E. unfold hx_mem in E. cbn in E. now injection E. }
  split; [|split; vm_compute; reflexivity].
  cbn. repeat split.
  - exists [YPrim (YInt U16); YOption YBool]. repeat constructor; try (vm_compute; discriminate). eexists. reflexivity.
  - repeat constructor; cbn; tauto.
  - intros E. vm_compute in E. discriminate E.
  - intros E. vm_compute in E. discriminate E.
Qed.
