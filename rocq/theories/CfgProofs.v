(** Proofs about the control-flow graph builder of PricingModel.v. *)
From Coq Require Import String List NArith Arith Bool Lia ZifyBool ZifyNat ZifyN.
From Verif Require Import Base Text GraphModel GraphSpec GraphProofs ProgramModel ProgramSpec ProgramProofs PricingModel.
Import ListNotations.
Open Scope list_scope.
Open Scope N_scope.

(* ------------------------------------------------------------------------- *)
(** * The builder seen through its edges, operations, pending jumps and scopes *)

Definition size (b : builder) : N := nlen (cb_blocks b).
Definition out_edge (bl : list cblock) (x y : N) : Prop :=
  exists k, nth_error bl (N.to_nat x) = Some k /\ In y (bl_out k).
Definition E (b : builder) : N -> N -> Prop := out_edge (cb_blocks b).
Definition ops_in (bl : list cblock) (x : N) : list instr :=
  match nth_error bl (N.to_nat x) with Some k => bl_ops k | None => [] end.
Definition ops_of (b : builder) (x : N) : list instr := ops_in (cb_blocks b) x.
Definition pend (t : N) (b : builder) : list N :=
  match assoc t (cb_jumps b) with Some l => l | None => [] end.

Lemma assoc_del {A} k k' (l : list (N * A)) : assoc k (map_del k' l) = if k =? k' then None else assoc k l.
Proof.
  induction l as [|[j a] l IH]; cbn [map_del filter assoc fst]; [now destruct (k =? k')|].
  destruct (N.eqb_spec j k') as [->|D]; cbn [negb].
  - unfold map_del in IH. rewrite IH. destruct (N.eqb_spec k k') as [->|D']; auto.
    destruct (N.eqb_spec k' k); congruence.
  - cbn [assoc]. unfold map_del in IH. rewrite IH.
    destruct (N.eqb_spec j k) as [->|D']; auto. destruct (N.eqb_spec k k'); congruence.
Qed.
Lemma assoc_put {A} k k' (a : A) l : assoc k (map_put k' a l) = if k =? k' then Some a else assoc k l.
Proof.
  unfold map_put. cbn [assoc]. rewrite assoc_del. destruct (N.eqb_spec k' k) as [->|D].
  - now rewrite N.eqb_refl.
  - destruct (N.eqb_spec k k'); congruence.
Qed.

Lemma at_block_length n f l : length (at_block n f l) = length l.
Proof. revert n. induction l; intros [|n]; cbn; auto. Qed.
Lemma at_block_nth n f l m : nth_error (at_block n f l) m =
  if (m =? n)%nat then option_map f (nth_error l m) else nth_error l m.
Proof.
  revert n m. induction l as [|x l IH]; intros n m.
  - destruct (m =? n)%nat; destruct n, m; reflexivity.
  - destruct n, m; cbn; auto.
Qed.

Section Basic.
Variable b : builder.

Lemma create_size : size (create_block b) = size b + 1.
Proof. unfold size, create_block, nlen. cbn. rewrite app_length. cbn. lia. Qed.
Lemma create_current : 0 < size b -> current (create_block b) = size b.
Proof. intros. unfold current. change (nlen (cb_blocks (create_block b))) with (size (create_block b)). rewrite create_size. lia. Qed.
Lemma create_E x y : E (create_block b) x y <-> E b x y.
Proof.
  unfold E, out_edge, create_block. cbn. split; intros (k & A & B).
  - destruct (Nat.lt_ge_cases (N.to_nat x) (length (cb_blocks b))) as [L|L].
    + rewrite nth_error_app1 in A by lia. eauto.
    + rewrite nth_error_app2 in A by lia. destruct (N.to_nat x - length (cb_blocks b))%nat as [|n]; cbn in A.
      * injection A as <-. destruct B.
      * destruct n; discriminate.
  - exists k. rewrite nth_error_app1; auto. apply nth_error_Some. congruence.
Qed.
Lemma create_ops x : ops_of (create_block b) x = ops_of b x.
Proof.
  unfold ops_of, ops_in, create_block. cbn.
  destruct (Nat.lt_ge_cases (N.to_nat x) (length (cb_blocks b))) as [L|L].
  - now rewrite nth_error_app1 by lia.
  - rewrite nth_error_app2 by lia. replace (nth_error (cb_blocks b) (N.to_nat x)) with (@None cblock)
      by (symmetry; now apply nth_error_None).
    destruct (N.to_nat x - length (cb_blocks b))%nat as [|n]; cbn; auto. destruct n; auto.
Qed.

Lemma edge_size o t : size (cfg_edge o t b) = size b.
Proof. unfold size, nlen, cfg_edge. cbn. now rewrite at_block_length. Qed.
Lemma edge_current o t : current (cfg_edge o t b) = current b.
Proof. unfold current, nlen, cfg_edge. cbn. now rewrite at_block_length. Qed.
Lemma edge_E o t x y : o < size b -> (E (cfg_edge o t b) x y <-> E b x y \/ (x = o /\ y = t)).
Proof.
  intros L. unfold E, out_edge, cfg_edge. cbn. rewrite at_block_nth.
  destruct (Nat.eqb_spec (N.to_nat x) (N.to_nat o)) as [Q|Q].
  - apply N2Nat.inj in Q. subst x. destruct (nth_error (cb_blocks b) (N.to_nat o)) as [k|] eqn:K.
    + cbn [option_map]. split.
      * intros (k' & A & B). injection A as <-. cbn in B. apply in_app_or in B.
        destruct B as [B|[B|[]]]; [left; eauto|right; auto].
      * intros [(k' & A & B)|[_ ->]]; eexists; (split; [reflexivity|]); cbn; apply in_or_app.
        -- injection A as <-. auto.
        -- right. now left.
    + apply nth_error_None in K. unfold size, nlen in L. lia.
  - split; auto. intros [?|[-> ->]]; auto. now destruct Q.
Qed.
Lemma edge_ops o t x : ops_of (cfg_edge o t b) x = ops_of b x.
Proof.
  unfold ops_of, ops_in, cfg_edge. cbn. rewrite at_block_nth.
  destruct (_ =? _)%nat; auto. now destruct (nth_error _ _).
Qed.

Lemma append_size i : size (append i b) = size b.
Proof. unfold size, nlen, append. cbn. now rewrite at_block_length. Qed.
Lemma append_current i : current (append i b) = current b.
Proof. unfold current, nlen, append. cbn. now rewrite at_block_length. Qed.
Lemma append_E i x y : E (append i b) x y <-> E b x y.
Proof.
  unfold E, out_edge, append. cbn. rewrite at_block_nth. destruct (_ =? _)%nat; [|tauto].
  destruct (nth_error _ _) as [k|]; cbn; [|split; intros (? & A & _); discriminate].
  split; intros (k' & A & B); injection A as <-; eexists; (split; [reflexivity|auto]).
Qed.
Lemma append_ops i x : 0 < size b ->
  ops_of (append i b) x = if x =? current b then ops_of b x ++ [i] else ops_of b x.
Proof.
  intros P. unfold ops_of, ops_in, append. cbn. rewrite at_block_nth.
  destruct (N.eqb_spec x (current b)) as [->|D].
  - rewrite Nat.eqb_refl. destruct (nth_error _ _) eqn:K; auto. apply nth_error_None in K.
    unfold size, current, nlen in *. lia.
  - destruct (Nat.eqb_spec (N.to_nat x) (N.to_nat (current b))) as [Q|Q]; auto.
    apply N2Nat.inj in Q. congruence.
Qed.
End Basic.

(** The invariant of the builder. *)
Definition cont_shape (c : conts) (o : N) : Prop :=
  c = mkConts (Some o) (Some o) None \/ c = mkConts None None (Some o).
Record binv (b : builder) : Prop := mkBinv {
  bi_size : 0 < size b;
  bi_fwd : forall x y, E b x y -> x < y /\ y < size b;
  bi_jumps : forall t o, In o (pend t b) -> o < current b;
  bi_conts : forall t c, assoc t (cb_conts b) = Some c -> t < cb_depth b /\ exists o, cont_shape c o /\ o < current b;
  bi_out : forall x, x < current b -> (exists y, E b x y) \/ (exists t, In x (pend t b)) \/
             (exists t, assoc t (cb_conts b) = Some (mkConts None None (Some x)))
}.

(** What processing more instructions never takes away. *)
Record grows (b b' : builder) : Prop := mkGrows {
  gr_size : size b <= size b';
  gr_E : forall x y, E b x y -> E b' x y;
  gr_ops : forall x, exists s, ops_of b' x = ops_of b x ++ s
}.
Lemma grows_refl b : grows b b.
Proof. split; auto; [lia|]. intros x. exists []. now rewrite app_nil_r. Qed.
Lemma grows_trans a b c : grows a b -> grows b c -> grows a c.
Proof.
  intros [A1 A2 A3] [B1 B2 B3]. split; auto; [lia|]. intros x.
  destruct (A3 x) as [s X], (B3 x) as [s' Y]. exists (s ++ s'). now rewrite Y, X, app_assoc.
Qed.

Lemma size_current b : 0 < size b -> size b = current b + 1.
Proof. unfold size, current. lia. Qed.

(** Adding one jump per pending origin. *)
Lemma resolve_fold js : forall b, Forall (fun o => o < size b) js ->
  let b' := fold_left (fun b origin => cfg_edge origin (current b) b) js b in
  cb_depth b' = cb_depth b /\ cb_jumps b' = cb_jumps b /\ cb_conts b' = cb_conts b /\ size b' = size b /\
  current b' = current b /\ (forall x, ops_of b' x = ops_of b x) /\
  forall x y, E b' x y <-> E b x y \/ (In x js /\ y = current b).
Proof.
  induction js as [|o js IH]; intros b F; cbn [fold_left].
  - do 6 (split; [auto|]). intros. cbn. tauto.
  - inversion F as [|? ? Fo F']; subst. specialize (IH (cfg_edge o (current b) b)).
    destruct IH as (A1 & A2 & A3 & A4 & A5 & A6 & A7).
    { eapply Forall_impl; [|exact F']. intros a H. cbn beta in *. now rewrite edge_size. }
    rewrite A1, A2, A3, A4, A5, edge_size, edge_current.
    do 5 (split; [reflexivity|]). split; [intros; now rewrite A6, edge_ops|].
    intros x y. rewrite A7, edge_E, edge_current by auto. cbn. intuition (subst; auto).
Qed.

Lemma resolve_spec d cr b : 0 < size b -> (forall o, In o (pend d b) -> o < size b) ->
  let b' := resolve_jumps d cr b in
  cb_depth b' = cb_depth b /\ cb_conts b' = cb_conts b /\
  (forall k, pend k b' = if k =? d then [] else pend k b) /\
  (forall k, assoc k (cb_jumps b') = if k =? d then None else assoc k (cb_jumps b)) /\
  (forall x, ops_of b' x = ops_of b x) /\
  size b' = size b + (if cr then match pend d b with [] => 0 | _ => 1 end else 0) /\
  (forall x y, E b' x y <-> E b x y \/
     (pend d b <> [] /\ y = current b' /\ ((cr = true /\ x = current b) \/ In x (pend d b)))).
Proof.
  intros Sz H. unfold resolve_jumps, pend in *.
  destruct (assoc d (cb_jumps b)) as [js|] eqn:J.
  2:{ cbv zeta. do 2 (split; [auto|]). split; [intros k; destruct (N.eqb_spec k d) as [->|]; [now rewrite J|auto]|].
      split; [intros k; destruct (N.eqb_spec k d) as [->|]; [now rewrite J|auto]|].
      split; [auto|]. split; [destruct cr; lia|]. intros. split; auto. intros [?|[X _]]; auto. now destruct X. }
  destruct js as [|j js].
  { cbv zeta. do 2 (split; [auto|]). cbn [with_jumps cb_jumps]. split; [|split].
    - intros k. rewrite assoc_del. now destruct (k =? d).
    - intros k. apply assoc_del.
    - split; [auto|]. split; [change (size b = size b + (if cr then 0 else 0)); destruct cr; lia|].
      intros. split; auto. intros [?|[X _]]; auto. now destruct X. }
  set (b1 := with_jumps (map_del d (cb_jumps b)) b).
  set (b2 := if cr then let old := current b1 in let b := create_block b1 in cfg_edge old (current b) b else b1).
  assert (S1 : size b1 = size b) by reflexivity.
  assert (C1 : current b1 = current b) by reflexivity.
  assert (S2 : size b2 = size b + if cr then 1 else 0).
  { unfold b2. destruct cr; [|lia]. cbv zeta. rewrite edge_size, create_size, S1. reflexivity. }
  assert (D2 : cb_depth b2 = cb_depth b /\ cb_jumps b2 = map_del d (cb_jumps b) /\ cb_conts b2 = cb_conts b).
  { unfold b2. destruct cr; cbn; auto. }
  assert (O2 : forall x, ops_of b2 x = ops_of b x).
  { intros x. unfold b2. destruct cr; [|reflexivity]. cbv zeta. rewrite edge_ops, create_ops. reflexivity. }
  assert (E2 : forall x y, E b2 x y <-> E b x y \/ (cr = true /\ x = current b /\ y = current b2)).
  { intros x y. unfold b2. destruct cr; cbv zeta.
    - rewrite edge_E, create_E, edge_current; [|rewrite create_size, S1, C1; rewrite (size_current b Sz); lia].
      change (E b1 x y) with (E b x y). rewrite C1. intuition.
    - change (E b1 x y) with (E b x y). intuition. discriminate. }
  destruct (resolve_fold (j :: js) b2) as (A1 & A2 & A3 & A4 & A5 & A6 & A7).
  { apply Forall_forall. intros o I. specialize (H o I). lia. }
  destruct D2 as (D2a & D2b & D2c). cbv zeta. rewrite A1, A2, A3, A4, S2, D2a, D2b, D2c.
  do 2 (split; [auto|]). split; [intros k; rewrite assoc_del; now destruct (k =? d)|].
  split; [intros k; apply assoc_del|].
  split; [intros x; now rewrite A6, O2|]. split; [destruct cr; lia|].
  intros x y. rewrite A7, E2, A5. split.
  - intros [[X|(-> & -> & ->)]|[X ->]]; auto.
    + right. split; [discriminate|auto].
    + right. split; [discriminate|auto].
  - intros [X|(_ & -> & [(-> & ->)|X])]; auto.
Qed.

Definition owner (b : builder) (t : N) : list N :=
  match assoc t (cb_conts b) with
  | Some c => match after_then c, after_if c with Some o, _ => [o] | None, Some o => [o] | None, None => [] end
  | None => []
  end.

(** The end of a scope: a new block when something else than falling through leads there. *)
Lemma exit_spec b b' : binv b -> exit_scope b = Some b' ->
  let d := cb_depth b - 1 in
  let srcs := owner b d ++ pend d b in
  0 < cb_depth b /\ cb_depth b' = d /\
  (forall k, assoc k (cb_conts b') = if k =? d then None else assoc k (cb_conts b)) /\
  (forall k, pend k b' = if k =? d then [] else pend k b) /\
  (forall k, assoc k (cb_jumps b') = if k =? d then None else assoc k (cb_jumps b)) /\
  (forall x, ops_of b' x = ops_of b x) /\
  size b' = size b + match srcs with [] => 0 | _ => 1 end /\
  (forall x y, E b' x y <-> E b x y \/
     (srcs <> [] /\ y = current b' /\ (x = current b \/ In x srcs))).
Proof.
  intros B H. pose proof (bi_size b B) as Sz. pose proof (size_current b Sz) as Sc.
  unfold exit_scope in H. destruct (N.eqb_spec (cb_depth b) 0) as [|D0]; [discriminate|].
  set (d := cb_depth b - 1) in *. unfold owner. fold d.
  assert (Pd : forall t o, In o (pend t b) -> o < size b) by (intros t o I; pose proof (bi_jumps b B t o I); lia).
  destruct (assoc d (cb_conts b)) as [c|] eqn:Cd.
  2:{ injection H as <-. unfold do_exit_scope. fold d.
      destruct (resolve_spec d true (with_depth d b) Sz (Pd d)) as (A1 & A2 & A3 & A4 & A5 & A6 & A7).
      change (cb_depth (with_depth d b)) with d.
      cbv zeta. split; [lia|]. split; [exact A1|]. split.
      { intros k. rewrite A2. cbn. destruct (N.eqb_spec k d) as [->|]; auto. }
      split; [exact A3|]. split; [exact A4|]. split; [exact A5|]. split; [exact A6|]. intros x y. rewrite A7.
      change (pend d (with_depth d b)) with (pend d b). change (E (with_depth d b) x y) with (E b x y).
      change (current (with_depth d b)) with (current b). cbn [app]. intuition. }
  destruct (bi_conts b B d c Cd) as (_ & o & Sh & Lo).
  assert (G : exists o', (match after_then c, after_if c with Some o, _ => [o] | None, Some o => [o] | None, None => [] end) = [o'] /\
     o' < current b /\
     Some b' = Some (do_exit_scope false (cfg_edge o' (current b + 1) (cfg_edge (current b) (current b + 1)
                (with_conts (map_del d (cb_conts b)) (create_block b)))))).
  { exists o. destruct Sh as [->| ->]; cbn [after_then after_if] in *; (split; [reflexivity|split; [exact Lo|]]);
      rewrite <- H; unfold exit_else, exit_then; fold d; cbn [conts_empty on_if_false after_if after_then];
      rewrite !edge_current;
      change (current (with_conts (map_del d (cb_conts (create_block b))) (create_block b))) with (current (create_block b));
      rewrite create_current, Sc by auto; reflexivity. }
  destruct G as (o' & -> & Lo' & Eb). clear H Sh o Lo. injection Eb as ->.
  set (b1 := with_conts (map_del d (cb_conts b)) (create_block b)).
  set (b2 := cfg_edge o' (current b + 1) (cfg_edge (current b) (current b + 1) b1)).
  assert (S1 : size b1 = size b + 1) by apply create_size.
  assert (S2 : size b2 = size b + 1) by (unfold b2; rewrite !edge_size; exact S1).
  assert (E1 : forall x y, E b1 x y <-> E b x y) by apply create_E.
  assert (C2 : current b2 = current b + 1) by (pose proof (size_current b2); lia).
  unfold do_exit_scope. change (cb_depth b2) with (cb_depth b). fold d.
  change (cb_depth (with_depth d b2)) with d.
  destruct (resolve_spec d false (with_depth d b2)) as (A1 & A2 & A3 & A4 & A5 & A6 & A7).
  { change (0 < size b2). lia. }
  { intros o I. change (In o (pend d b)) in I. change (o < size b2). specialize (Pd d o I). lia. }
  cbv zeta. split; [lia|]. split; [exact A1|]. split; [intros k; rewrite A2; apply assoc_del|].
  split; [exact A3|]. split; [exact A4|].
  split; [intros x; rewrite A5; change (ops_of (with_depth d b2) x) with (ops_of b2 x); unfold b2; rewrite !edge_ops; apply create_ops|].
  split; [rewrite A6; change (size (with_depth d b2)) with (size b2); cbn [app]; lia|].
  assert (Sr : size (resolve_jumps d false (with_depth d b2)) = size b + 1).
  { rewrite A6. change (size (with_depth d b2)) with (size b2). lia. }
  assert (Cr : current (resolve_jumps d false (with_depth d b2)) = current b + 1).
  { pose proof (size_current (resolve_jumps d false (with_depth d b2))). lia. }
  intros x y. rewrite A7, Cr. change (E (with_depth d b2) x y) with (E b2 x y).
  change (pend d (with_depth d b2)) with (pend d b).
  unfold b2. rewrite edge_E, edge_E, E1 by (rewrite ?edge_size; lia). cbn [app].
  split.
  - intros [[[X|[-> ->]]|[-> ->]]|(_ & -> & [[X _]|X])]; auto; [| |discriminate|];
      right; (split; [discriminate|]); (split; [auto|]); auto; right; cbn; auto.
  - intros [X|(_ & -> & [->|[<-|X]])]; auto. right. split; [|auto]. intros Z. rewrite Z in X. destruct X.
Qed.

(** The branches of a jump. *)
Lemma add_jumps_spec o ls : forall b b', add_jumps o ls b = Some b' ->
  cb_depth b' = cb_depth b /\ cb_blocks b' = cb_blocks b /\ cb_conts b' = cb_conts b /\
  (forall l, In l ls -> l < cb_depth b /\ In o (pend (cb_depth b - l - 1) b')) /\
  (forall t x, In x (pend t b) -> In x (pend t b')) /\
  (forall t x, In x (pend t b') -> In x (pend t b) \/ (x = o /\ exists l, In l ls /\ t = cb_depth b - l - 1)) /\
  (forall t, assoc t (cb_jumps b') <> None -> assoc t (cb_jumps b) <> None \/ exists l, In l ls /\ t = cb_depth b - l - 1).
Proof.
  induction ls as [|l ls IH]; intros b b' H; cbn [add_jumps] in H.
  - injection H as <-. do 3 (split; [auto|]). split; [intros ? []|]. split; [auto|]. split; auto.
  - unfold target_depth in H. destruct (N.ltb_spec l (cb_depth b)) as [L|]; [|discriminate]. cbn [obind] in H.
    set (t0 := cb_depth b - l - 1) in *.
    destruct (IH _ _ H) as (A1 & A2 & A3 & A4 & A5 & A6 & A7). clear IH H.
    assert (P : forall t, pend t (add_jump o t0 b) = if t =? t0 then pend t0 b ++ [o] else pend t b).
    { intros t. unfold pend, add_jump. cbn [cb_jumps with_jumps create_block with_blocks]. rewrite assoc_put. destruct (t =? t0); auto. }
    change (cb_depth (add_jump o t0 b)) with (cb_depth b) in *.
    split; [exact A1|]. split; [exact A2|]. split; [exact A3|]. split; [|split; [|split]].
    + intros l' [<-|I]; [|auto]. split; [auto|]. apply A5. fold t0. rewrite P, N.eqb_refl. apply in_or_app. cbn. auto.
    + intros t x I. apply A5. rewrite P. destruct (N.eqb_spec t t0) as [->|]; auto. apply in_or_app. auto.
    + intros t x I. destruct (A6 t x I) as [X|(-> & l' & I' & ->)].
      * rewrite P in X. destruct (N.eqb_spec t t0) as [->|]; auto. apply in_app_or in X. destruct X as [X|[X|[]]]; auto.
        right. split; auto. exists l. split; [now left|reflexivity].
      * right. split; auto. exists l'. split; [now right|reflexivity].
    + intros t Z. destruct (A7 t Z) as [X|(l' & I' & ->)].
      * unfold add_jump in X. cbn [cb_jumps with_jumps create_block with_blocks] in X. rewrite assoc_put in X. destruct (N.eqb_spec t t0) as [->|]; auto.
        right. exists l. split; [now left|reflexivity].
      * right. exists l'. split; [now right|reflexivity].
Qed.

(** The labels of a jump: [None] = out of the function. *)
Definition jump_labels (i : instr) : list N :=
  match i with Br l | BrIf l => [l] | BrTable t d => d :: t | _ => [] end.
Definition is_jump (i : instr) : bool :=
  match i with Return | Unreachable | Br _ | BrIf _ | BrTable _ _ => true | _ => false end.
Definition plain (i : instr) : bool :=
  match i with Op _ | Block | Loop | Call _ | CallIndirect _ => true | _ => false end.
Definition conditional (i : instr) : bool := match i with BrIf _ => true | _ => false end.

Lemma jump_spec i b b' : binv b -> is_jump i = true -> cfg_op i b = Some b' ->
  cb_depth b' = cb_depth b /\ size b' = size b + 1 /\ cb_conts b' = cb_conts b /\
  (forall x, ops_of b' x = ops_of b x) /\
  (forall x y, E b' x y <-> E b x y \/ (conditional i = true /\ x = current b /\ y = current b')) /\
  (forall l, In l (jump_labels i) -> l < cb_depth b /\ In (current b) (pend (cb_depth b - l - 1) b')) /\
  (forall t x, In x (pend t b) -> In x (pend t b')) /\
  (forall t x, In x (pend t b') -> In x (pend t b) \/ x = current b) /\
  (exists t, In (current b) (pend t b')) /\
  (forall t, assoc t (cb_jumps b') <> None -> assoc t (cb_jumps b) <> None \/ t = 0 \/
     exists l, In l (jump_labels i) /\ t = cb_depth b - l - 1) /\
  (jump_labels i = [] -> In (current b) (pend 0 b')).
Proof.
  intros B J H. pose proof (bi_size b B) as Sz. pose proof (size_current b Sz) as Sc.
  assert (JJ : forall ls b1, add_jumps (current b) ls (create_block b) = Some b1 -> ls <> [] ->
    cb_depth b1 = cb_depth b /\ size b1 = size b + 1 /\ cb_conts b1 = cb_conts b /\
    (forall x, ops_of b1 x = ops_of b x) /\ (forall x y, E b1 x y <-> E b x y) /\
    (forall l, In l ls -> l < cb_depth b /\ In (current b) (pend (cb_depth b - l - 1) b1)) /\
    (forall t x, In x (pend t b) -> In x (pend t b1)) /\
    (forall t x, In x (pend t b1) -> In x (pend t b) \/ x = current b) /\
    (exists t, In (current b) (pend t b1)) /\
    (forall t, assoc t (cb_jumps b1) <> None -> assoc t (cb_jumps b) <> None \/ t = 0 \/
      exists l, In l ls /\ t = cb_depth b - l - 1)).
  { intros ls b1 X NE. destruct (add_jumps_spec _ _ _ _ X) as (A1 & A2 & A3 & A4 & A5 & A6 & A7).
    split; [exact A1|]. split; [unfold size; rewrite A2; apply create_size|]. split; [exact A3|].
    split; [intros x; unfold ops_of; rewrite A2; apply create_ops|].
    split; [intros x y; unfold E; rewrite A2; apply create_E|].
    split; [exact A4|]. split; [exact A5|]. split; [|split].
    - intros t x I. destruct (A6 t x I) as [Y|[-> _]]; auto.
    - destruct ls as [|l ls]; [congruence|]. eexists. apply (A4 l). now left.
    - intros t Z. destruct (A7 t Z) as [Y|Y]; auto. }
  destruct i; try discriminate J; cbn [cfg_op] in H; cbn [conditional jump_labels].
  - (* Unreachable *)
    injection H as <-.
    assert (P : forall t, pend t (add_jump (current b) 0 (create_block b)) =
                if t =? 0 then pend 0 b ++ [current b] else pend t b).
    { intros t. unfold pend, add_jump. cbn [cb_jumps with_jumps create_block with_blocks]. rewrite assoc_put. destruct (t =? 0); auto. }
    split; [reflexivity|]. split; [apply create_size|]. split; [reflexivity|]. split; [apply create_ops|].
    split; [intros x y; change (E (create_block b) x y <-> E b x y \/ (false = true /\ x = current b /\ y = current (add_jump (current b) 0 (create_block b))));
            rewrite create_E; intuition; discriminate|].
    split; [intros ? []|]. split; [|split; [|split; [|split]]].
    + intros t x I. rewrite P. destruct (N.eqb_spec t 0) as [->|]; auto. apply in_or_app; auto.
    + intros t x I. rewrite P in I. destruct (N.eqb_spec t 0) as [->|]; auto. apply in_app_or in I. destruct I as [|[|[]]]; auto.
    + exists 0. rewrite P. cbn. apply in_or_app. cbn. auto.
    + intros t Z. unfold add_jump in Z. cbn [cb_jumps with_jumps create_block with_blocks] in Z. rewrite assoc_put in Z. destruct (N.eqb_spec t 0); auto.
    + intros _. rewrite P. cbn. apply in_or_app. cbn. auto.
  - destruct (JJ _ _ H) as (A1 & A2 & A3 & A4 & A5 & A6 & A7 & A8 & A9 & A10); [discriminate|].
    do 4 (split; [assumption|]). split; [intros x y; rewrite A5; intuition; discriminate|].
    do 5 (split; [assumption|]). discriminate.
  - destruct (add_jumps (current b) [label] (create_block b)) as [b1|] eqn:X; [|discriminate].
    cbn [obind] in H. injection H as <-.
    destruct (JJ _ _ X) as (A1 & A2 & A3 & A4 & A5 & A6 & A7 & A8 & A9 & A10); [discriminate|].
    split; [exact A1|]. split; [rewrite edge_size; exact A2|]. split; [exact A3|].
    split; [intros; rewrite edge_ops; apply A4|].
    split; [intros x y; rewrite edge_E, edge_current, A5 by lia; intuition|].
    do 5 (split; [assumption|]). discriminate.
  - destruct (JJ _ _ H) as (A1 & A2 & A3 & A4 & A5 & A6 & A7 & A8 & A9 & A10); [discriminate|].
    do 4 (split; [assumption|]). split; [intros x y; rewrite A5; intuition; discriminate|].
    do 5 (split; [assumption|]). discriminate.
  - (* Return *)
    injection H as <-.
    assert (P : forall t, pend t (add_jump (current b) 0 (create_block b)) =
                if t =? 0 then pend 0 b ++ [current b] else pend t b).
    { intros t. unfold pend, add_jump. cbn [cb_jumps with_jumps create_block with_blocks]. rewrite assoc_put. destruct (t =? 0); auto. }
    split; [reflexivity|]. split; [apply create_size|]. split; [reflexivity|]. split; [apply create_ops|].
    split; [intros x y; change (E (create_block b) x y <-> E b x y \/ (false = true /\ x = current b /\ y = current (add_jump (current b) 0 (create_block b))));
            rewrite create_E; intuition; discriminate|].
    split; [intros ? []|]. split; [|split; [|split; [|split]]].
    + intros t x I. rewrite P. destruct (N.eqb_spec t 0) as [->|]; auto. apply in_or_app; auto.
    + intros t x I. rewrite P in I. destruct (N.eqb_spec t 0) as [->|]; auto. apply in_app_or in I. destruct I as [|[|[]]]; auto.
    + exists 0. rewrite P. cbn. apply in_or_app. cbn. auto.
    + intros t Z. unfold add_jump in Z. cbn [cb_jumps with_jumps create_block with_blocks] in Z. rewrite assoc_put in Z. destruct (N.eqb_spec t 0); auto.
    + intros _. rewrite P. cbn. apply in_or_app. cbn. auto.
Qed.

Lemma if_spec b : binv b -> let b' := enter_if b in
  cb_depth b' = cb_depth b + 1 /\ size b' = size b + 1 /\ cb_jumps b' = cb_jumps b /\
  (forall x, ops_of b' x = ops_of b x) /\
  (forall k, assoc k (cb_conts b') =
     if k =? cb_depth b then Some (mkConts (Some (current b)) (Some (current b)) None) else assoc k (cb_conts b)) /\
  (forall x y, E b' x y <-> E b x y \/ (x = current b /\ y = current b')).
Proof.
  intros B. pose proof (bi_size b B) as Sz. pose proof (size_current b Sz) as Sc.
  unfold enter_if. destruct (assoc (cb_depth b) (cb_conts b)) as [c|] eqn:C.
  { apply (bi_conts b B) in C. lia. }
  set (b1 := with_conts (map_put (cb_depth b) (mkConts (Some (current b)) (Some (current b)) None) (cb_conts b)) b).
  assert (C1 : current (create_block b1) = size b) by exact (create_current b1 Sz).
  cbv zeta.
  split; [reflexivity|]. split; [change (size (cfg_edge (current b) (current (create_block b1)) (create_block b1)) = size b + 1); rewrite edge_size; exact (create_size b1)|].
  split; [reflexivity|].
  split; [intros x; change (ops_of (cfg_edge (current b) (current (create_block b1)) (create_block b1)) x = ops_of b x); rewrite edge_ops; exact (create_ops b1 x)|].
  split; [intros k; apply assoc_put|].
  intros x y. change (E (cfg_edge (current b) (current (create_block b1)) (create_block b1)) x y <->
    E b x y \/ (x = current b /\ y = current (cfg_edge (current b) (current (create_block b1)) (create_block b1)))).
  rewrite edge_current, edge_E, create_E by (rewrite create_size; change (size b1) with (size b); lia).
  change (E b1 x y) with (E b x y). tauto.
Qed.

Lemma else_spec b b' : binv b -> enter_else b = Some b' ->
  exists o, assoc (cb_depth b - 1) (cb_conts b) = Some (mkConts (Some o) (Some o) None) /\
  1 < cb_depth b /\ cb_depth b' = cb_depth b /\ size b' = size b + 1 /\ cb_jumps b' = cb_jumps b /\
  (forall x, ops_of b' x = ops_of b x) /\
  (forall k, assoc k (cb_conts b') =
     if k =? cb_depth b - 1 then Some (mkConts None None (Some (current b))) else assoc k (cb_conts b)) /\
  (forall x y, E b' x y <-> E b x y \/ (x = o /\ y = current b')).
Proof.
  intros B H. pose proof (bi_size b B) as Sz. pose proof (size_current b Sz) as Sc.
  unfold enter_else in H. destruct (N.leb_spec (cb_depth b) 1) as [|D]; [discriminate|].
  destruct (assoc (cb_depth b - 1) (cb_conts b)) as [c|] eqn:C; [|discriminate]. cbn [obind] in H.
  destruct (bi_conts b B _ _ C) as (_ & o & [->| ->] & Lo); cbn [on_if_false after_then obind conts_empty after_if] in H; [|discriminate].
  exists o. split; [reflexivity|].
  set (b1 := with_conts (map_put (cb_depth b - 1) (mkConts None None (Some (current b))) (cb_conts b)) b) in *.
  injection H as <-.
  split; [lia|]. split; [reflexivity|]. split; [rewrite edge_size; exact (create_size b1)|]. split; [reflexivity|].
  split; [intros x; rewrite edge_ops; exact (create_ops b1 x)|]. split; [intros k; apply assoc_put|].
  intros x y. rewrite edge_current, edge_E, create_E by (rewrite create_size; change (size b1) with (size b); lia).
  change (E b1 x y) with (E b x y). tauto.
Qed.

Lemma plain_spec i b b' : 0 < size b -> plain i = true -> cfg_op i b = Some b' ->
  cb_depth b' = cb_depth b + (match i with Block => 1 | _ => 0 end) /\ size b' = size b /\ current b' = current b /\
  cb_jumps b' = cb_jumps b /\ cb_conts b' = cb_conts b /\
  (forall x, ops_of b' x = if x =? current b then ops_of b x ++ [i] else ops_of b x) /\
  (forall x y, E b' x y <-> E b x y).
Proof.
  intros Sz P H.
  assert (G : b' = append i (match i with Block => enter_scope b | _ => b end)).
  { destruct i; try discriminate P; cbn [cfg_op] in H; injection H as <-; reflexivity. }
  assert (Q : forall b0, (b0 = b \/ b0 = enter_scope b) -> current b0 = current b /\ size b0 = size b /\
     cb_jumps b0 = cb_jumps b /\ cb_conts b0 = cb_conts b /\ (forall x, ops_of b0 x = ops_of b x) /\ (forall x y, E b0 x y <-> E b x y)).
  { intros b0 [->| ->]; repeat split; auto. }
  destruct (Q (match i with Block => enter_scope b | _ => b end)) as (A1 & A2 & A3 & A4 & A5 & A6); [destruct i; auto|].
  split; [rewrite G; destruct i; cbn; lia|].
  rewrite G. rewrite append_size, append_current, A1, A2. split; [auto|]. split; [auto|].
  split; [exact A3|]. split; [exact A4|]. split.
  - intros x. rewrite append_ops, A1, A5 by lia. reflexivity.
  - intros x y. rewrite append_E. apply A6.
Qed.

(* ------------------------------------------------------------------------- *)
(** * Every instruction keeps the invariant and only adds *)

Lemma instr_cases i : is_jump i = true \/ i = If \/ i = Else \/ i = End \/ plain i = true.
Proof. destruct i; cbn; auto 6. Qed.

Lemma cfg_op_inv i b b' : binv b -> cfg_op i b = Some b' -> binv b' /\ grows b b'.
Proof.
  intros B H. pose proof (bi_size b B) as Sz. pose proof (size_current b Sz) as Sc.
  assert (NoOps : forall b2, (forall x, ops_of b2 x = ops_of b x) -> forall x, exists s, ops_of b2 x = ops_of b x ++ s).
  { intros b2 X x. exists []. now rewrite X, app_nil_r. }
  destruct (instr_cases i) as [J|[->|[->|[->|P]]]].
  - destruct (jump_spec i b b' B J H) as (A1 & A2 & A3 & A4 & A5 & A6 & A7 & A8 & A9 & _).
    assert (C' : current b' = current b + 1) by (pose proof (size_current b'); lia).
    split; [|split; [lia|intros; apply A5; auto|now apply NoOps]].
    split; [lia| | | |].
    + intros x y X. apply A5 in X. destruct X as [X|(_ & -> & ->)]; [apply (bi_fwd b B) in X|]; lia.
    + intros t o I. apply A8 in I. destruct I as [I| ->]; [apply (bi_jumps b B) in I|]; lia.
    + intros t c X. rewrite A3 in X. apply (bi_conts b B) in X. destruct X as (X & o & Y & Z).
      rewrite A1. split; [auto|]. exists o. split; [auto|lia].
    + intros x Lx. destruct (N.eq_dec x (current b)) as [->|D]; [right; left; exact A9|].
      destruct (bi_out b B x) as [(y & X)|[(t & X)|(t & X)]]; [lia| | |].
      * left. exists y. apply A5. auto.
      * right. left. exists t. auto.
      * right. right. exists t. now rewrite A3.
  - injection H as <-. destruct (if_spec b B) as (A1 & A2 & A3 & A4 & A5 & A6).
    set (b' := enter_if b) in *. assert (C' : current b' = current b + 1) by (pose proof (size_current b'); lia).
    split; [|split; [lia|intros; apply A6; auto|now apply NoOps]].
    split; [lia| | | |].
    + intros x y X. apply A6 in X. destruct X as [X|(-> & ->)]; [apply (bi_fwd b B) in X|]; lia.
    + intros t o I. unfold pend in I. rewrite A3 in I. apply (bi_jumps b B) in I. lia.
    + intros t c X. rewrite A5 in X. destruct (N.eqb_spec t (cb_depth b)) as [->|D].
      * injection X as <-. split; [lia|]. exists (current b). split; [now left|lia].
      * apply (bi_conts b B) in X. destruct X as (X & o & Y & Z). split; [lia|]. exists o. split; [auto|lia].
    + intros x Lx. destruct (N.eq_dec x (current b)) as [->|D]; [left; exists (current b'); apply A6; auto|].
      destruct (bi_out b B x) as [(y & X)|[(t & X)|(t & X)]]; [lia| | |].
      * left. exists y. apply A6. auto.
      * right. left. exists t. unfold pend. now rewrite A3.
      * right. right. exists t. rewrite A5. destruct (N.eqb_spec t (cb_depth b)) as [->|]; auto.
        apply (bi_conts b B) in X. lia.
  - destruct (else_spec b b' B H) as (o & A0 & A1 & A2 & A3 & A4 & A5 & A6 & A7).
    assert (C' : current b' = current b + 1) by (pose proof (size_current b'); lia).
    assert (Lo : o < current b).
    { apply (bi_conts b B) in A0. destruct A0 as (_ & o' & [X|X] & Y); [injection X as <-; auto|discriminate]. }
    split; [|split; [lia|intros; apply A7; auto|now apply NoOps]].
    split; [lia| | | |].
    + intros x y X. apply A7 in X. destruct X as [X|(-> & ->)]; [apply (bi_fwd b B) in X|]; lia.
    + intros t o' I. unfold pend in I. rewrite A4 in I. apply (bi_jumps b B) in I. lia.
    + intros t c X. rewrite A6 in X. destruct (N.eqb_spec t (cb_depth b - 1)) as [->|D].
      * injection X as <-. split; [lia|]. exists (current b). split; [now right|lia].
      * apply (bi_conts b B) in X. destruct X as (X & o' & Y & Z). split; [lia|]. exists o'. split; [auto|lia].
    + intros x Lx. destruct (N.eq_dec x (current b)) as [->|D].
      { right. right. exists (cb_depth b - 1). rewrite A6, N.eqb_refl. reflexivity. }
      destruct (bi_out b B x) as [(y & X)|[(t & X)|(t & X)]]; [lia| | |].
      * left. exists y. apply A7. auto.
      * right. left. exists t. unfold pend. now rewrite A4.
      * right. right. exists t. rewrite A6. destruct (N.eqb_spec t (cb_depth b - 1)) as [->|]; auto.
        rewrite A0 in X. discriminate.
  - destruct (exit_spec b b' B H) as (A1 & A2 & A3 & A4 & _ & A5 & A6 & A7).
    set (d := cb_depth b - 1) in *. set (srcs := owner b d ++ pend d b) in *.
    assert (Cb : size b' = current b' + 1 /\ current b <= current b').
    { pose proof (size_current b'). destruct srcs; lia. }
    assert (Ls : forall x, In x srcs -> x < current b).
    { intros x I. unfold srcs in I. apply in_app_or in I. destruct I as [I|I].
      - unfold owner in I. destruct (assoc d (cb_conts b)) as [c|] eqn:C; [|destruct I].
        apply (bi_conts b B) in C. destruct C as (_ & o & [->| ->] & L); cbn in I; destruct I as [<-|[]]; auto.
      - apply (bi_jumps b B) in I. auto. }
    assert (Cs : srcs <> [] -> current b' = current b + 1).
    { intros Z. destruct srcs; [congruence|lia]. }
    split; [|split; [destruct srcs; lia|intros; apply A7; auto|now apply NoOps]].
    split; [destruct srcs; lia| | | |].
    + intros x y X. apply A7 in X. destruct X as [X|(Z & -> & [->|X])].
      * apply (bi_fwd b B) in X. lia.
      * specialize (Cs Z). lia.
      * specialize (Cs Z). apply Ls in X. lia.
    + intros t o I. rewrite A4 in I. destruct (t =? d); [destruct I|]. apply (bi_jumps b B) in I. lia.
    + intros t c X. rewrite A3 in X. destruct (N.eqb_spec t d) as [->|D]; [discriminate|].
      apply (bi_conts b B) in X. destruct X as (X & o & Y & Z). split; [lia|]. exists o. split; [auto|lia].
    + intros x Lx. destruct (N.eq_dec x (current b)) as [->|D].
      { left. exists (current b'). apply A7. right. destruct srcs eqn:Es; [lia|]. split; [discriminate|auto]. }
      destruct (bi_out b B x) as [(y & X)|[(t & X)|(t & X)]].
      * destruct srcs; lia.
      * left. exists y. apply A7. auto.
      * destruct (N.eqb_spec t d) as [->|Dt].
        -- left. exists (current b'). apply A7. right.
           assert (In x srcs) by (unfold srcs; apply in_or_app; auto).
           split; [intros Z; rewrite Z in H0; destruct H0|auto].
        -- right. left. exists t. rewrite A4. destruct (N.eqb_spec t d); [congruence|auto].
      * destruct (N.eqb_spec t d) as [->|Dt].
        -- left. exists (current b'). apply A7. right.
           assert (In x srcs) by (unfold srcs, owner; rewrite X; cbn; auto).
           split; [intros Z; rewrite Z in H0; destruct H0|auto].
        -- right. right. exists t. rewrite A3. destruct (N.eqb_spec t d); [congruence|auto].
  - destruct (plain_spec i b b' Sz P H) as (A1 & A2 & A3 & A4 & A5 & A6 & A7).
    split; [|split; [lia|intros; apply A7; auto|]].
    2:{ intros x. rewrite A6. destruct (x =? current b); [eauto|exists []; now rewrite app_nil_r]. }
    split; [lia| | | |].
    + intros x y X. apply A7 in X. apply (bi_fwd b B) in X. lia.
    + intros t o I. unfold pend in I. rewrite A4 in I. apply (bi_jumps b B) in I. lia.
    + intros t c X. rewrite A5 in X. apply (bi_conts b B) in X. destruct X as (X & o & Y & Z).
      split; [lia|]. exists o. split; [auto|lia].
    + intros x Lx. destruct (bi_out b B x) as [(y & X)|[(t & X)|(t & X)]]; [lia| | |].
      * left. exists y. now apply A7.
      * right. left. exists t. unfold pend. now rewrite A4.
      * right. right. exists t. now rewrite A5.
Qed.

Lemma cfg_new_inv : binv cfg_new.
Proof.
  split.
  - reflexivity.
  - intros x y (k & A & B). cbn in A. destruct (N.to_nat x) as [|[|n]] eqn:Z; cbn in A.
    + injection A as <-. cbn in B. destruct B as [<-|[]]. change (size cfg_new) with 2. lia.
    + injection A as <-. destruct B.
    + destruct n; discriminate.
  - intros t o []. 
  - intros t c X. discriminate X.
  - intros x L. change (current cfg_new) with 1 in L. left. exists 1. exists (mkBlock [] [1]).
    assert (x = 0) by lia. subst. split; [reflexivity|now left].
Qed.

Lemma cfg_ops_app p q b : cfg_ops (p ++ q) b = let? b := cfg_ops p b in cfg_ops q b.
Proof.
  revert b. induction p as [|i p IH]; intros b; cbn [app cfg_ops obind]; auto.
  destruct (cfg_op i b); cbn [obind]; auto.
Qed.

Lemma cfg_ops_inv k : forall b b', binv b -> cfg_ops k b = Some b' -> binv b' /\ grows b b'.
Proof.
  induction k as [|i k IH]; intros b b' B H; cbn [cfg_ops] in H.
  - injection H as <-. split; [auto|apply grows_refl].
  - destruct (cfg_op i b) as [b1|] eqn:X; [|discriminate]. cbn [obind] in H.
    destruct (cfg_op_inv i b b1 B X) as [B1 G1]. destruct (IH b1 b' B1 H) as [B2 G2].
    split; [auto|eapply grows_trans; eauto].
Qed.

(* ------------------------------------------------------------------------- *)
(** * Where control goes *)

(** Depths. *)
Definition depth_after (i : instr) (d : N) : N :=
  match i with Block | If => d + 1 | End => d - 1 | _ => d end.
Lemma cfg_op_depth i b b' : binv b -> cfg_op i b = Some b' -> cb_depth b' = depth_after i (cb_depth b).
Proof.
  intros B H. destruct (instr_cases i) as [J|[->|[->|[->|P]]]].
  - destruct (jump_spec i b b' B J H) as (A1 & _). rewrite A1. destruct i; try discriminate J; reflexivity.
  - injection H as <-. now destruct (if_spec b B) as (A1 & _).
  - destruct (else_spec b b' B H) as (o & _ & _ & A2 & _). auto.
  - now destruct (exit_spec b b' B H) as (_ & A2 & _).
  - destruct (plain_spec i b b' (bi_size b B) P H) as (A1 & _). rewrite A1. destruct i; try discriminate P; cbn; lia.
Qed.

(** A pending jump stays pending until its scope ends. *)
Lemma pend_stays i b b' t o : binv b -> cfg_op i b = Some b' -> In o (pend t b) ->
  (i = End -> cb_depth b <> t + 1) -> In o (pend t b').
Proof.
  intros B H I NE. destruct (instr_cases i) as [J|[->|[->|[->|P]]]].
  - destruct (jump_spec i b b' B J H) as (_ & _ & _ & _ & _ & _ & A7 & _). auto.
  - injection H as <-. destruct (if_spec b B) as (_ & _ & A3 & _). unfold pend. now rewrite A3.
  - destruct (else_spec b b' B H) as (o' & _ & _ & _ & _ & A4 & _). unfold pend. now rewrite A4.
  - destruct (exit_spec b b' B H) as (A1 & _ & _ & A4 & _). rewrite A4.
    destruct (N.eqb_spec t (cb_depth b - 1)) as [->|]; auto. exfalso. apply NE; [auto|lia].
  - destruct (plain_spec i b b' (bi_size b B) P H) as (_ & _ & _ & A4 & _). unfold pend. now rewrite A4.
Qed.

(** What is known of an open if stays until its else or end. *)
Lemma cont_stays i b b' d c : binv b -> cfg_op i b = Some b' -> assoc d (cb_conts b) = Some c ->
  (i = Else \/ i = End -> cb_depth b <> d + 1) -> assoc d (cb_conts b') = Some c.
Proof.
  intros B H I NE. destruct (instr_cases i) as [J|[->|[->|[->|P]]]].
  - destruct (jump_spec i b b' B J H) as (_ & _ & A3 & _). now rewrite A3.
  - injection H as <-. destruct (if_spec b B) as (_ & _ & _ & _ & A5 & _). rewrite A5.
    destruct (N.eqb_spec d (cb_depth b)) as [->|]; auto. apply (bi_conts b B) in I. lia.
  - destruct (else_spec b b' B H) as (o' & _ & L & _ & _ & _ & _ & A6 & _). rewrite A6.
    destruct (N.eqb_spec d (cb_depth b - 1)) as [->|]; auto. exfalso. apply NE; [auto|lia].
  - destruct (exit_spec b b' B H) as (A1 & _ & A3 & _). rewrite A3.
    destruct (N.eqb_spec d (cb_depth b - 1)) as [->|]; auto. exfalso. apply NE; [auto|lia].
  - destruct (plain_spec i b b' (bi_size b B) P H) as (_ & _ & _ & _ & A5 & _). now rewrite A5.
Qed.

(** [reaches k c b b2]: reading [k] from [b], position [c] is met in state [b2]. *)
Definition meets (k c : list instr) (b b2 : builder) : Prop :=
  exists q, k = q ++ c /\ cfg_ops q b = Some b2.
Lemma meets_here k b : meets k k b b.
Proof. exists []. auto. Qed.
Lemma meets_cons i k c b b1 b2 : cfg_op i b = Some b1 -> meets k c b1 b2 -> meets (i :: k) c b b2.
Proof. intros X (q & -> & Y). exists (i :: q). split; auto. cbn [cfg_ops]. now rewrite X. Qed.

Definition no_loop (k : list instr) : Prop := ~ In Loop k.

(** The end of a scope, for everything that waits for it. *)
Definition waits (b : builder) (t o : N) : Prop :=
  In o (pend t b) \/ assoc t (cb_conts b) = Some (mkConts None None (Some o)).
Lemma waits_stays i b b' t o : binv b -> cfg_op i b = Some b' -> waits b t o ->
  (i = End -> cb_depth b <> t + 1) -> waits b' t o.
Proof.
  intros B H [W|W] NE.
  - left. eapply pend_stays; eauto.
  - right. eapply cont_stays; eauto. intros [->| ->]; auto.
    intros D. destruct (else_spec b b' B H) as (o' & X & _). rewrite D in X.
    replace (t + 1 - 1) with t in X by lia. congruence.
Qed.
Lemma waits_end b b' o : binv b -> cfg_op End b = Some b' -> waits b (cb_depth b - 1) o ->
  E b' o (current b') /\ E b' (current b) (current b').
Proof.
  intros B H W. destruct (exit_spec b b' B H) as (A1 & _ & _ & _ & _ & _ & _ & A7).
  assert (In o (owner b (cb_depth b - 1) ++ pend (cb_depth b - 1) b)).
  { apply in_or_app. destruct W as [W|W]; [auto|]. left. unfold owner. rewrite W. cbn. auto. }
  assert (owner b (cb_depth b - 1) ++ pend (cb_depth b - 1) b <> []) by (intros Z; rewrite Z in H0; destruct H0).
  split; apply A7; right; split; auto.
Qed.

Lemma after_end_meets k : forall n c b bF t o, no_loop k -> binv b -> after_end n k = Some c ->
  cfg_ops k b = Some bF -> cb_depth b = t + 1 + N.of_nat n -> waits b t o ->
  exists b2, meets k c b b2 /\ E b2 o (current b2) /\ cb_depth b2 = t.
Proof.
  induction k as [|i k IH]; intros n c b bF t o NL B A H D W; [discriminate|].
  cbn [cfg_ops] in H. destruct (cfg_op i b) as [b1|] eqn:X; [|discriminate]. cbn [obind] in H.
  destruct (cfg_op_inv i b b1 B X) as [B1 _]. pose proof (cfg_op_depth i b b1 B X) as D1.
  assert (NL' : no_loop k) by (intros Z; apply NL; now right).
  assert (NLi : i <> Loop) by (intros ->; apply NL; now left).
  assert (G : forall m, after_end m k = Some c -> (i = End -> n <> O) -> cb_depth b1 = t + 1 + N.of_nat m ->
     exists b2, meets (i :: k) c b b2 /\ E b2 o (current b2) /\ cb_depth b2 = t).
  { intros m Am NE Dm. destruct (IH m c b1 bF t o NL' B1 Am H Dm) as (b2 & M & R).
    - apply (waits_stays i b b1 t o B X W). intros Z. specialize (NE Z). lia.
    - exists b2. split; [eapply meets_cons; eauto|auto]. }
  destruct i; cbn [after_end] in A; cbn [depth_after] in D1;
    try (apply (G n A); [discriminate|lia]);
    try (apply (G (S n) A); [discriminate|lia]).
  - congruence.
  - destruct n as [|n].
    + injection A as <-. exists b1. split; [eapply meets_cons; [exact X|apply meets_here]|].
      assert (W' : waits b (cb_depth b - 1) o) by (replace (cb_depth b - 1) with t by lia; exact W).
      destruct (waits_end b b1 o B X W') as [Z _]. split; [auto|lia].
    + apply (G n A); [discriminate|lia].
Qed.

Lemma on_false_meets k : forall n fb b bF d o, no_loop k -> binv b -> on_false n k = Some fb ->
  cfg_ops k b = Some bF -> cb_depth b = d + 1 + N.of_nat n ->
  assoc d (cb_conts b) = Some (mkConts (Some o) (Some o) None) ->
  exists b2, E b2 o (current b2) /\
    match fb with
    | ToElse c => meets k c b b2 /\ cb_depth b2 = d + 1
    | ToEnd c => meets k c b b2 /\ cb_depth b2 = d
    end.
Proof.
  induction k as [|i k IH]; intros n fb b bF d o NL B A H D W; [discriminate|].
  cbn [cfg_ops] in H. destruct (cfg_op i b) as [b1|] eqn:X; [|discriminate]. cbn [obind] in H.
  destruct (cfg_op_inv i b b1 B X) as [B1 _]. pose proof (cfg_op_depth i b b1 B X) as D1.
  assert (NL' : no_loop k) by (intros Z; apply NL; now right).
  assert (NLi : i <> Loop) by (intros ->; apply NL; now left).
  assert (G : forall m, on_false m k = Some fb -> (i = End \/ i = Else -> n <> O) -> cb_depth b1 = d + 1 + N.of_nat m ->
    exists b2, E b2 o (current b2) /\
      match fb with
      | ToElse c => meets (i :: k) c b b2 /\ cb_depth b2 = d + 1
      | ToEnd c => meets (i :: k) c b b2 /\ cb_depth b2 = d
      end).
  { intros m Am NE Dm. destruct (IH m fb b1 bF d o NL' B1 Am H Dm) as (b2 & M & R).
    - apply (cont_stays i b b1 d _ B X W). intros Z. assert (n <> O) by (apply NE; tauto). lia.
    - exists b2. split; [auto|]. destruct fb; destruct R as [R1 R2]; (split; [eapply meets_cons; eauto|auto]). }
  destruct i; cbn [on_false] in A; cbn [depth_after] in D1;
    try (apply (G n A); [intros [?|?]; discriminate|lia]);
    try (apply (G (S n) A); [intros [?|?]; discriminate|lia]).
  - congruence.
  - destruct n as [|n].
    + injection A as <-. exists b1. destruct (else_spec b b1 B X) as (o' & Co & _ & _ & _ & _ & _ & _ & A7).
      replace (cb_depth b - 1) with d in Co by lia. rewrite W in Co. injection Co as <-.
      split; [apply A7; auto|]. split; [eapply meets_cons; [exact X|apply meets_here]|lia].
    + apply (G (S n) A); [discriminate|lia].
  - destruct n as [|n].
    + injection A as <-. exists b1. destruct (exit_spec b b1 B X) as (_ & _ & _ & _ & _ & _ & _ & A7).
      replace (cb_depth b - 1) with d in A7 by lia.
      split.
      * apply A7. right. unfold owner. rewrite W. cbn. split; [discriminate|auto].
      * split; [eapply meets_cons; [exact X|apply meets_here]|lia].
    + apply (G n A); [discriminate|lia].
Qed.

(** Falling through to the next instruction. *)
Lemma falls i b b' : binv b -> cfg_op i b = Some b' -> (plain i = true \/ i = If \/ conditional i = true \/ i = End) ->
  current b' = current b \/ E b' (current b) (current b').
Proof.
  intros B H [P|[->|[Cn| ->]]].
  - left. now destruct (plain_spec i b b' (bi_size b B) P H) as (_ & _ & A3 & _).
  - injection H as <-. right. destruct (if_spec b B) as (_ & _ & _ & _ & _ & A6). apply A6. auto.
  - right. assert (J : is_jump i = true) by (destruct i; auto; discriminate).
    destruct (jump_spec i b b' B J H) as (_ & _ & _ & _ & A5 & _). apply A5. auto.
  - destruct (exit_spec b b' B H) as (_ & _ & _ & _ & _ & _ & A6 & A7).
    destruct (owner b (cb_depth b - 1) ++ pend (cb_depth b - 1) b) eqn:S.
    + left. pose proof (size_current b (bi_size b B)). unfold size, current in *. lia.
    + right. apply A7. right. split; [discriminate|auto].
Qed.
