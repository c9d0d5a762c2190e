(** Calls that touch no common account can be swapped. *)
From Coq Require Import List NArith ZArith Bool Lia.
From Verif Require Import Base CodecModel CodecSpec CodecProofs ReceiptModel ReceiptProofs LayoutModel SectionModel.
From Verif Require Import SectionSpec SectionProofs SectionCanon StorageModel StorageSpec StorageProofs GlobalModel GlobalSpec GlobalProofs.
From Verif Require Import RuntimeModel RuntimeSpec RuntimeProofs OutcomeProofs AnswerSpec AnswerProofs AlikeSpec AlikeProofs LocalSpec LocalProofs.
Import ListNotations.
Open Scope N_scope.

(** What a successful call leaves alone. *)
Lemma call_leaves e en m tx g rc g' : iterates e -> collision_free e -> engine_wf en -> engine_texts en -> live e g -> bytes_ok m ->
  decoded dec_transaction m = Some tx -> rt_call e en m g = (Some rc, g') -> cr_success rc = true ->
  live e g' /\ In (tx_target tx) (cr_touched rc) /\ Forall (array_wf 20) (cr_touched rc)
  /\ forall t, tkey_wf t -> ~ allowed (fun x => In x (cr_touched rc)) (fun x => x = tx_target tx) t ->
     cur e g' (key_of t) = cur e g (key_of t).
Proof.
  intros HI HC HE HT HL Hm Ed. unfold rt_call. rewrite Ed.
  assert (Hw : transaction_wf tx) by (eapply decoded_canon; eauto using transaction_canon). destruct Hw as [S1 S2 S3 S4 S5].
  intros E Hs. assert (G : call_good rc) by (eapply (transact_good e en tx FullAccess (tx_func_name tx) (tx_calldata tx)); eauto; apply S5).
  assert (W : Forall (array_wf 20) (cr_touched rc)).
  { destruct G as [[]|(er & logs & -> & _)]; [assumption|discriminate Hs]. }
  revert E. unfold transact.
  destruct (build_call_reads e tx FullAccess (tx_func_name tx) (tx_calldata tx) g) as [(cl & -> & Em & _ & Et & Ei & _)| ->]; [|discriminate].
  unfold exec_call. destruct (exec e en cl g) as [o k] eqn:E.
  apply exec_cases in E; auto; [|congruence|rewrite Ei; apply S5].
  destruct E as (HL1 & g1 & _ & (_ & _ & N) & K).
  destruct o as [r|[er lg]|]; intros X; try discriminate X; injection X as X Y; subst; [|discriminate Hs].
  rewrite Et in K. destruct K as (_ & _ & _ & K & [O _] & _).
  split; [exact HL1|]. split; [exact K|]. split; [exact W|].
  intros t Wt A. rewrite N. now apply O.
Qed.

Lemma disjoint_agree e T L T' L' g g' : live e g -> live e g' -> array_wf 20 T' -> Forall (array_wf 20) L' ->
  (forall x, In x L' -> ~ In x L) -> T' <> T ->
  (forall t, tkey_wf t -> ~ allowed (fun x => In x L) (fun x => x = T) t -> cur e g' (key_of t) = cur e g (key_of t)) ->
  agree e T' L' g g'.
Proof.
  intros [_ A] [_ B] HT HL D N H. split; [exact A|]. split; [exact B|]. rewrite Forall_forall in HL. intros k [t Ht|t Ht|a Ha|a Ha|n Hn].
  - apply (H (TCore t)); [now split|intros []].
  - apply (H (TNon t)); [now split|intros []].
  - apply (H (TImm a)); [now split|intros []].
  - apply (H (TMut a)); [split; [now apply HL|exact I]|]. now apply D.
  - apply (H (TSeg T' n)); [now split|exact N].
Qed.

Lemma storage_key_of k : storage_key k -> exists t, tkey_wf t /\ k = key_of t.
Proof.
  intros [a Ha|a Ha|a n Ha Hn|a Ha|a Ha];
    [exists (TImm a)|exists (TMut a)|exists (TSeg a n)|exists (TCore a)|exists (TNon a)]; (split; [split; [exact Ha|first [exact Hn|exact I]]|reflexivity]).
Qed.

Lemma calls_commute e en m1 m2 t1 t2 g r1 r2 g1 g2 : iterates e -> collision_free e -> engine_wf en -> engine_texts en -> live e g ->
  bytes_ok m1 -> bytes_ok m2 -> decoded dec_transaction m1 = Some t1 -> decoded dec_transaction m2 = Some t2 ->
  rt_call e en m1 g = (Some r1, g1) -> cr_success r1 = true ->
  rt_call e en m2 g = (Some r2, g2) -> cr_success r2 = true ->
  (forall x, In x (cr_touched r1) -> ~ In x (cr_touched r2)) ->
  exists r12 g12 r21 g21, rt_call e en m2 g1 = (Some r12, g12) /\ rt_call e en m1 g2 = (Some r21, g21)
    /\ but_state r12 = but_state r2 /\ but_state r21 = but_state r1
    /\ forall k, storage_key k -> reads_same e k g12 g21.
Proof.
  intros HI HC HE HT HL B1 B2 D1 D2 E1 S1 E2 S2 D.
  destruct (call_leaves e en m1 t1 g r1 g1) as (L1 & T1 & W1 & U1); auto.
  destruct (call_leaves e en m2 t2 g r2 g2) as (L2 & T2 & W2 & U2); auto.
  assert (D' : forall x, In x (cr_touched r2) -> ~ In x (cr_touched r1)) by (intros x X Y; exact (D x Y X)).
  assert (N : tx_target t1 <> tx_target t2) by (intros Q; apply (D (tx_target t1)); [exact T1|rewrite Q; exact T2]).
  assert (X1 : array_wf 20 (tx_target t1)) by (rewrite Forall_forall in W1; auto).
  assert (X2 : array_wf 20 (tx_target t2)) by (rewrite Forall_forall in W2; auto).
  assert (A1 : agree e (tx_target t2) (cr_touched r2) g g1) by (eapply (disjoint_agree e (tx_target t1) (cr_touched r1)); eauto).
  assert (A2 : agree e (tx_target t1) (cr_touched r1) g g2) by (eapply (disjoint_agree e (tx_target t2) (cr_touched r2)); eauto).
  destruct (local_call e en m2 t2 g g1 r2 g2 HI HC HE HL L1 B2 D2 A1 E2 S2) as (r12 & g12 & E12 & Q12 & A12 & _ & L12).
  destruct (local_call e en m1 t1 g g2 r1 g1 HI HC HE HL L2 B1 D1 A2 E1 S1) as (r21 & g21 & E21 & Q21 & A21 & _ & L21).
  exists r12, g12, r21, g21. split; [exact E12|]. split; [exact E21|]. split; [exact Q12|]. split; [exact Q21|].
  assert (C12 : cr_touched r12 = cr_touched r2) by (apply (f_equal cr_touched) in Q12; exact Q12).
  assert (C21 : cr_touched r21 = cr_touched r1) by (apply (f_equal cr_touched) in Q21; exact Q21).
  assert (S12 : cr_success r12 = true) by (apply (f_equal cr_success) in Q12; cbn in Q12; congruence).
  assert (S21 : cr_success r21 = true) by (apply (f_equal cr_success) in Q21; cbn in Q21; congruence).
  destruct (call_leaves e en m2 t2 g1 r12 g12) as (_ & _ & _ & U12); auto.
  destruct (call_leaves e en m1 t1 g2 r21 g21) as (_ & _ & _ & U21); auto.
  rewrite C12 in U12. rewrite C21 in U21.
  intros k K. destruct (storage_key_of k K) as (t & Wt & ->).
  destruct L12 as [_ P12], L21 as [_ P21]. unfold reads_same. rewrite !gs_get_now. cbn [fst]. f_equal.
  destruct A12 as (_ & _ & A12), A21 as (_ & _ & A21).
  assert (Dec : allowed (fun x => In x (cr_touched r1)) (fun x => x = tx_target t1) t
    \/ ~ allowed (fun x => In x (cr_touched r1)) (fun x => x = tx_target t1) t).
  { destruct t; cbn [allowed]; try (now right);
      [destruct (in_dec (list_eq_dec N.eq_dec) a (cr_touched r1))|destruct (list_eq_dec N.eq_dec a (tx_target t1))]; tauto. }
  assert (Dec2 : allowed (fun x => In x (cr_touched r2)) (fun x => x = tx_target t2) t
    \/ ~ allowed (fun x => In x (cr_touched r2)) (fun x => x = tx_target t2) t).
  { destruct t; cbn [allowed]; try (now right);
      [destruct (in_dec (list_eq_dec N.eq_dec) a (cr_touched r2))|destruct (list_eq_dec N.eq_dec a (tx_target t2))]; tauto. }
  assert (WK : forall T L, allowed (fun x => In x L) (fun x => x = T) t -> watched T L (key_of t)).
  { intros T L. destruct Wt as [Wa Wn]. destruct t; cbn [allowed]; intros Q; try contradiction; [now apply w_balance|subst; now apply w_variable]. }
  destruct Dec as [Y|Y].
  - assert (Z : ~ allowed (fun x => In x (cr_touched r2)) (fun x => x = tx_target t2) t).
    { destruct t; cbn [allowed] in *; try contradiction; [now apply D|congruence]. }
    rewrite (U12 t Wt Z). symmetry. apply A21. now apply WK.
  - rewrite (U21 t Wt Y). destruct Dec2 as [Z|Z].
    + apply A12. now apply WK.
    + rewrite (U12 t Wt Z), (U1 t Wt Y), (U2 t Wt Z). reflexivity.
Qed.
