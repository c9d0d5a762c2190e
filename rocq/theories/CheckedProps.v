(** C123: nodes built with and without debug assertions. *)
From Coq Require Import String.
From Coq Require Import List NArith ZArith Bool Lia.
From Verif Require Import Base CodecModel ReceiptModel LayoutModel SectionModel StorageModel Text GlobalModel RuntimeModel RuntimeSpec RuntimeProps.
From Verif Require Import CheckedModel CheckedSpec CheckedProofs.
Import ListNotations.
Open Scope list_scope.
Open Scope N_scope.

(** ** C123 Both builds of a node *)

(** Contracts that give their answer at most once are run alike by both builds: same receipt, same state,
    same cached prices. *)
Theorem C123_one_answer_partial :
  forall e en g, answers_once en ->
  (forall message, call_in true e en message g = call_in false e en message g)
  /\ (forall message, verify_in true e en message g = verify_in false e en message g)
  /\ (forall ev message c, spawn_in true e en ev message c g = spawn_in false e en ev message c g).
Proof.
  intros e en g A.
  assert (C : forall checks m, call_in checks e en m g = rt_call e en m g).
  { intros checks m. destruct (call_near true checks e en m g (fine_true checks en A)) as [H|[H _]]; [exact H|discriminate H]. }
  assert (V : forall checks m, verify_in checks e en m g = verify e en m g).
  { intros checks m. destruct (verify_near true checks e en m g (fine_true checks en A)) as [H|[H _]]; [exact H|discriminate H]. }
  assert (W : forall checks ev m c, spawn_in checks e en ev m c g = spawn e en ev m c g).
  { intros checks ev m c. destruct (spawn_near true checks e en ev m c g (fine_true checks en A)) as [H|[H _]]; [exact H|discriminate H]. }
  repeat split; intros; [rewrite !C|rewrite !V|rewrite !W]; reflexivity.
Qed.
Print Assumptions C123_one_answer_partial.
(** Whatever the contracts do, the build with assertions gives no receipt that the other one does not
    give, with the same state: it can only stop. *)
Theorem C123_no_other_receipt_partial :
  forall e en g,
  (forall message, same_or_panic (call_in true e en message g) (call_in false e en message g))
  /\ (forall message, same_or_panic (verify_in true e en message g) (verify_in false e en message g))
  /\ (forall ev message c, spawn_in true e en ev message c g = spawn_in false e en ev message c g
        \/ fst (fst (spawn_in true e en ev message c g)) = None).
Proof.
  intros e en g. unfold same_or_panic.
  assert (C : forall m, call_in false e en m g = rt_call e en m g).
  { intros m. destruct (call_near true false e en m g (fine_unchecked en)) as [H|[H _]]; [exact H|discriminate H]. }
  assert (V : forall m, verify_in false e en m g = verify e en m g).
  { intros m. destruct (verify_near true false e en m g (fine_unchecked en)) as [H|[H _]]; [exact H|discriminate H]. }
  assert (W : forall ev m c, spawn_in false e en ev m c g = spawn e en ev m c g).
  { intros ev m c. destruct (spawn_near true false e en ev m c g (fine_unchecked en)) as [H|[H _]]; [exact H|discriminate H]. }
  repeat split.
  - intros m. rewrite C. destruct (call_near false true e en m g (fine_false true en)) as [H|[_ H]]; [left|right]; exact H.
  - intros m. rewrite V. destruct (verify_near false true e en m g (fine_false true en)) as [H|[_ H]]; [left|right]; exact H.
  - intros ev m c. rewrite W. destruct (spawn_near false true e en ev m c g (fine_false true en)) as [H|[_ H]]; [left|right]; exact H.
Qed.
Print Assumptions C123_no_other_receipt_partial.
(** What the other chapters say is said about the build without assertions. *)
Theorem C123_release :
  forall e en g,
  (forall message, call_in false e en message g = rt_call e en message g)
  /\ (forall message, verify_in false e en message g = verify e en message g)
  /\ (forall ev message c, spawn_in false e en ev message c g = spawn e en ev message c g).
Proof.
  intros e en g. repeat split.
  - intros m. destruct (call_near true false e en m g (fine_unchecked en)) as [H|[H _]]; [exact H|discriminate H].
  - intros m. destruct (verify_near true false e en m g (fine_unchecked en)) as [H|[H _]]; [exact H|discriminate H].
  - intros ev m c. destruct (spawn_near true false e en ev m c g (fine_unchecked en)) as [H|[H _]]; [exact H|discriminate H].
Qed.
Print Assumptions C123_release.

(** The contract of the other examples, and a function that answers twice: with the first byte of the
    memory, then with the two next to it. *)
Definition kx_twice : engine :=
  mkEngine bytes (fun _ => None) (en_instantiate rx_engine) (fun _ => true) (en_func rx_engine)
    (fun i name args mem =>
       if bytes_eqb name (txt "go")
       then WHost mem (HSetReturndata 0 1) (fun _ m => WHost m (HSetReturndata 1 2) (fun _ m => WReturn m ([], [])))
       else en_call rx_engine i name args mem)
    (en_exports rx_engine) (en_prices rx_engine).
Lemma kx_ops : rt_reachable rx_env kx_twice
  (fst (fold_left (fun s o => run_rop rx_env kx_twice o s) rx_ops (rx_start, [])))
  (snd (fold_left (fun s o => run_rop rx_env kx_twice o s) rx_ops (rx_start, []))).
Proof.
  assert (H : rt_reachable rx_env kx_twice rx_start []) by (apply (rr_new _ _ []); [constructor|vm_compute; reflexivity]).
  revert H. generalize rx_start (@nil (bytes * (N -> option N))). pose proof rx_ops_wf as HF. induction HF as [|o ops Ho _ IH]; intros g c H; [exact H|].
  cbn [fold_left]. destruct (run_rop rx_env kx_twice o (g, c)) as [g1 c1] eqn:E. apply IH. now apply (rr_op _ _ o g c).
Qed.
Definition kx_state : gstate := fst (fold_left (fun s o => run_rop rx_env kx_twice o s) rx_ops (rx_start, [])).
Definition kx_answer (r : option call_receipt * gstate) : option (bool * option bytes) :=
  match fst r with Some c => Some (cr_success c, cr_returndata c) | None => None end.
Lemma kx_outcomes :
  kx_answer (call_in false rx_env kx_twice (rx_call (txt "go")) kx_state) = Some (true, Some (firstn 2 (skipn 1 rx_a)))
  /\ kx_answer (call_in true rx_env kx_twice (rx_call (txt "go")) kx_state) = None.
Proof. split; vm_compute; reflexivity. Qed.
(** Hence the builds do differ: one node gives a receipt for a call, with the last answer, that stops the
    other node. *)
Theorem C123_builds_agree_refuted :
  ~ (forall e en c g message, rt_reachable e en g c -> call_in true e en message g = call_in false e en message g).
Proof.
  intros H. specialize (H rx_env kx_twice _ kx_state (rx_call (txt "go")) kx_ops).
  destruct kx_outcomes as [H1 H2]. rewrite H in H2. rewrite H1 in H2. discriminate H2.
Qed.
Print Assumptions C123_builds_agree_refuted.

(** A contract that answers once. *)
Definition kx_once : engine :=
  mkEngine bytes (fun _ => None) (fun _ => WReturn ([3; 5; 6] ++ repeat 0 57) []) (fun _ => true)
    (fun _ name => Some (if bytes_eqb name svm_alloc then SigAlloc else SigUnit))
    (fun _ name _ mem => if bytes_eqb name svm_alloc then WReturn mem ([40], [])
                         else WHost mem HCalldataLen (fun _ m => WHost m (HSetReturndata 1 2) (fun _ m => WReturn m ([], []))))
    (fun _ => None) (fun _ => None).
Lemma kx_spawned (x : option spawn_receipt * price_cache * gstate) :
  match fst (fst x) with Some r => sr_success r | None => false end = true -> exists r c g, x = (Some r, c, g) /\ sr_success r = true.
Proof. destruct x as [[[r|] c] g]; cbn; intros H; [|discriminate H]. exists r, c, g. now split. Qed.
Example C123_satisfiable :
  answers_once kx_once /\ answers_once rx_engine /\ ~ answers_once kx_twice
  /\ kx_answer (call_in true rx_env rx_engine (rx_call (txt "set")) rx_state) = Some (true, Some [])
  /\ kx_answer (call_in true rx_env kx_once (rx_call (txt "go")) rx_state) = Some (true, Some [5; 6])
  /\ kx_answer (verify_in true rx_env kx_once (rx_call (txt "go")) rx_state) = None
  /\ (exists r c g, spawn_in true rx_env rx_engine (rx_envelope (Some 1000000)) (rx_spawn 1 (txt "init")) [] rx_state = (Some r, c, g) /\ sr_success r = true).
Proof.
  split; [|split; [|split; [|split; [|split; [|split]]]]].
  - split; [intros; constructor|]. intros i name args mem. cbn [en_call kx_once]. destruct (bytes_eqb name svm_alloc); [constructor|].
    apply answers_other; [intros; discriminate|]. intros. apply answers_set. intros. constructor.
  - split; [intros; constructor|]. intros i name args mem. cbn [en_call rx_engine]. unfold rx_body.
    repeat match goal with |- context [bytes_eqb name ?x] => destruct (bytes_eqb name x) end; try constructor; intros; try discriminate; constructor.
  - intros [_ H]. specialize (H [] (txt "go") [] []). cbn in H. inversion H as [| |n mem o l k A|n mem c k Nc A]; subst; [|now apply (Nc 0 1)].
    specialize (A 0 []). inversion A as [| | |n mem c k Nc A']; subst. now apply (Nc 1 2).
  - vm_compute. reflexivity.
  - vm_compute. reflexivity.
  - vm_compute. reflexivity.
  - apply kx_spawned. vm_compute. reflexivity.
Qed.
